(** Exact forms of C82 and C83: by which columns results are sorted, and what COUNT of a field counts, whatever the aliases. *)
From Coq Require Import String Ascii List Bool Arith NArith ZArith Lia Permutation Sorted.
From Verif Require Import GoStr Value Names Cond Build Surface SqlSpec DbSpec Spec StrFacts SqlFacts CondFacts CondText CondSem
  TreeFacts CondLogic CondMeaning Built CondThms PropsCond NameFacts PropsNames StmtFacts Calls BuildFacts BuildThms StmtText PropsSelect
  PropsWrite PropsSurface PropsMore AtomFacts PropsAtoms PropsOrder PropsDb PropsSorted PropsExactly.
Import ListNotations.
Local Open Scope string_scope.
Local Open Scope nat_scope.

(** * C82 *)

(** The name used for a field in ORDER BY: its alias if it has another name, its column otherwise. *)
Definition named_by (d : fdef) (k : string) : Prop := (own_name d /\ k = column d) \/ (~ own_name d /\ k = f_alias d).
(** The column that name stands for: the first column selected AS the name, or the column of that name if there is none. *)
Inductive stands_for (k : string) : list fdef -> string -> Prop :=
| sf_none : stands_for k [] k
| sf_here f fs : written_as f k -> stands_for k (f :: fs) (column f)
| sf_later f fs c : ~ written_as f k -> stands_for k fs c -> stands_for k (f :: fs) c.
Definition sorts_on (fs : list fdef) (d : fdef) (c : string) : Prop := exists k, named_by d k /\ stands_for k fs c.

Lemma named_by_key o k : named_by (s_def o) k -> fst (sort_item o) = k.
Proof.
  change (fst (sort_item o)) with (fst (sort_item (mkS (s_def o) ""))). intros [[H ->]|[H ->]]; [now apply own_key|now apply other_key].
Qed.
Lemma stands_for_key k fs c : stands_for k fs c -> key_column (cols_item fs) k = c.
Proof.
  assert (G : stands_for k fs c -> match find (fun i => match it_alias i with Some a => String.eqb a k | None => false end) (map field_item fs) with
                | Some i => it_text i | None => k end = c).
  { induction 1 as [|f fs Hw|f fs c Hw Hs IH]; [reflexivity| |]; cbn [map find].
    - apply item_written in Hw. rewrite Hw, String.eqb_refl. reflexivity.
    - destruct (it_alias (field_item f)) as [a|] eqn:Ea; [|exact IH]. destruct (String.eqb_spec a k) as [->|_]; [|exact IH].
      destruct Hw. now apply item_written. }
  intros H. apply G in H. destruct fs; exact H.
Qed.

(** Every ordering sorts by exactly one column. *)
Lemma sorts_on_one fs d : exists c, sorts_on fs d c /\ forall c', sorts_on fs d c' -> c' = c.
Proof.
  assert (K : exists k, named_by d k).
  { destruct (own_dec d) as [H|H]; [exists (column d); now left|exists (f_alias d); now right]. }
  destruct K as [k Hk]. assert (S : exists c, stands_for k fs c).
  { clear Hk. induction fs as [|f fs [c IH]]; [exists k; constructor|]. destruct (it_alias (field_item f)) as [a|] eqn:Ea.
    - destruct (string_dec a k) as [->|N]; [apply item_written in Ea; eexists; now apply sf_here|].
      exists c. apply sf_later; [|exact IH]. intros W. apply item_written in W. congruence.
    - exists c. apply sf_later; [|exact IH]. intros W. apply item_written in W. congruence. }
  destruct S as [c Hc]. exists c. split; [now exists k|]. intros c' (k' & Hk' & Hc').
  assert (k' = k) as -> by (rewrite <- (named_by_key (mkS d "") _ Hk), <- (named_by_key (mkS d "") _ Hk'); reflexivity).
  now rewrite <- (stands_for_key _ _ _ Hc), <- (stands_for_key _ _ _ Hc').
Qed.

(** For every SelectMany made by the methods, whatever its fields and orderings are called, there is exactly one column for each
    ordering by which the rows come sorted: the first one selected AS the name used, or the one of that name. *)
Theorem C82_sorted_exactly : forall b hm m, made_b b -> Forall plain_m hm -> calls m_call (many_of b) hm = Ok m ->
  exists cs, Forall2 (fun o c => sorts_on (b_fields (m_base m)) (s_def o) c) (flat_map mc_order hm) cs /\
  (forall cs', Forall2 (fun o c => sorts_on (b_fields (m_base m)) (s_def o) c) (flat_map mc_order hm) cs' -> cs' = cs) /\
  exists s ps s0 ps0 sel,
    m_build (m_set_limit (m_set_offset m 0) 0) = Ok (mkOut s ps None) /\
    m_build (unordered (m_set_limit (m_set_offset m 0) 0)) = Ok (mkOut s0 ps0 None) /\
    parse_select s = Some sel /\
    forall E db l, weak_order (before E) -> query E db s ps = Some (Rows E l) ->
    exists l0 rows0 rows,
      query E db s0 ps0 = Some (Rows E l0) /\ kept_rows E db ps sel = Some rows0 /\
      map (output E (s_cols sel)) rows0 = map Some l0 /\ map (output E (s_cols sel)) rows = map Some l /\
      Permutation rows0 rows /\
      StronglySorted (may_precede E (combine cs (map s_dir (flat_map mc_order hm)))) rows.
Proof.
  intros b hm m Hb Hm Em. set (fs := b_fields (m_base m)).
  assert (X : exists cs, Forall2 (fun o c => sorts_on fs (s_def o) c) (flat_map mc_order hm) cs).
  { induction (flat_map mc_order hm) as [|o os [cs IH]]; [exists []; constructor|].
    destruct (sorts_on_one fs (s_def o)) as (c & Hc & _). exists (c :: cs). now constructor. }
  destruct X as [cs Hcs]. exists cs. split; [exact Hcs|]. split.
  { intros cs' H'. clear - Hcs H'. revert cs' H'. induction Hcs as [|o c os cs Hc Hcs IH]; intros cs' H'; inversion H' as [|? c' ? cs1 Hc' H1]; subst; [reflexivity|].
    f_equal; [|now apply IH]. destruct (sorts_on_one fs (s_def o)) as (c0 & _ & U). now rewrite (U _ Hc), (U _ Hc'). }
  apply (sorted_rows b hm m Hb Hm Em). induction Hcs as [|o c os cs (k & Hk & Hc) Hcs IH]; constructor; [|exact IH].
  rewrite (named_by_key _ _ Hk). now apply stands_for_key.
Qed.
Print Assumptions C82_sorted_exactly.
(** Fields("age as id").OrderBy("id") sorts by age; without Fields, by id; with the alias only in OrderBy, by a column of that name. *)
Example C82_sorted_exactly_example :
  sorts_on [mkF "age" "" "id"] (mkF "id" "" "") "age" /\ sorts_on [] (mkF "id" "" "") "id" /\
  sorts_on [mkF "id" "u" ""; mkF "total" "o" "sum"; mkF "age" "u" "sum"] (mkF "sum" "" "") "o.total" /\
  sorts_on [mkF "age" "" ""] (mkF "age" "" "years") "years" /\
  exists b m, b_shop = Ok b /\ made_b b /\ Forall plain_m hm_sorted /\ calls m_call (many_of b) hm_sorted = Ok m.
Proof.
  split; [|split; [|split; [|split]]].
  - exists "id". split; [left; split; [now left|reflexivity]|]. change "age" with (column (mkF "age" "" "id")). apply sf_here.
    split; [reflexivity|]. split; [discriminate|left; discriminate].
  - exists "id". split; [left; split; [now left|reflexivity]|constructor].
  - exists "sum". split; [left; split; [now left|reflexivity]|]. apply sf_later; [intros (H & _); discriminate|].
    change "o.total" with (column (mkF "total" "o" "sum")). apply sf_here. split; [reflexivity|]. split; [discriminate|left; discriminate].
  - exists "years". split; [right; split; [intros [H|H]; discriminate|reflexivity]|]. apply sf_later; [intros (H & _); discriminate|constructor].
  - destruct C82_example as (b & m & A & B & C & D & _). now exists b, m.
Qed.

(** * C83 *)

Lemma alias_spaceless x f : field x = Ok f -> spaceless (f_alias f).
Proof.
  unfold field, field_p, field_or_error. destruct (parse_field x) as [d|] eqn:E; [|discriminate]. intros H. injection H as ->.
  apply parse_field_iff in E as (q & _ & [(-> & _)|(w & _ & HT)]); [exact spaceless_nil|].
  apply toks_tokens in HT. inversion HT as [|? ? _ H1]; subst. inversion H1 as [|? ? _ H2]; subst. inversion H2 as [|? ? [_ H3] _]; subst. exact H3.
Qed.
Lemma name_field n : name n = true -> spaceless n -> field n = Ok (mkF n "" "").
Proof.
  intros H Hs. unfold field, field_p, field_or_error. assert (P : parse_field n = Some (mkF n "" "")); [|now rewrite P].
  apply parse_field_iff. exists n. cbn [f_table f_name f_alias]. split; [constructor; now apply name_no_dot|]. left. split; [reflexivity|].
  apply toks_one; [now destruct n|exact Hs].
Qed.

(** The column counted: the one of the alias if the field has another name. *)
Definition counted (f g : fdef) : Prop := (own_name f /\ g = f) \/ (~ own_name f /\ g = mkF (f_alias f) "" "").
Lemma count_same b f g : counted f g -> cs_build (mkCS b f) = cs_build (mkCS b g).
Proof.
  intros [[_ ->]|[H ->]]; [reflexivity|]. unfold cs_build. cbn [cs_base cs_field].
  assert (E : render_field f = render_field (mkF (f_alias f) "" "")); [|now rewrite E].
  unfold render_field. cbn [f_alias f_name f_table]. destruct f as [n t a]. cbn in *.
  destruct a as [|c a]; [exfalso; apply H; now left|]. 
  change str_eqb with String.eqb. destruct (String.eqb_spec (String c a) n) as [e|ne]; [exfalso; apply H; now right|].
  cbn [is_empty negb andb]. reflexivity.
Qed.

(** For every field: COUNT of it counts the present values of the column [counted], that is of the field itself exactly if it
    has no other name. *)
Theorem C83_count_exactly : forall b x f more, made_b b -> field x = Ok f -> wf_field f ->
  exists g, counted f g /\ (g = f <-> own_name f) /\
  exists s ps q s' ps',
    b_build (b_set_fields b [g]) = Ok (mkOut s ps None) /\ count b (x :: more) = Ok q /\ cs_build q = Ok (mkOut s' ps' None) /\
    forall E db, query E db s' ps' = match query E db s ps with Some (Rows _ l) => Some (Number E (length (present l))) | r => r end.
Proof.
  intros b x f more Hb Ef Hf. destruct (own_dec f) as [Ho|Ho].
  { exists f. split; [now left|]. split; [tauto|]. now apply C83_count_partial. }
  exists (mkF (f_alias f) "" ""). split; [now right|]. split.
  { split; [|tauto]. intros E. destruct f as [n t a]. cbn in E. injection E as -> _ _. right. reflexivity. }
  assert (Ha : name (f_alias f) = true). { destruct Hf as (_ & _ & [Ha|Ha]); [|exact Ha]. destruct Ho. now left. }
  destruct (C83_count_partial b (f_alias f) _ more Hb (name_field _ Ha (alias_spaceless _ _ Ef))) as (s & ps & q & s' & ps' & E1 & E2 & E3 & E4).
  { split; [exact Ha|]. split; now left. }
  { now left. }
  exists s, ps, (mkCS b f), s', ps'. split; [exact E1|]. split; [unfold count; rewrite Ef; reflexivity|]. split; [|exact E4].
  unfold count in E2. rewrite (name_field _ Ha (alias_spaceless _ _ Ef)) in E2. cbn [bind] in E2. injection E2 as <-.
  rewrite (count_same b f (mkF (f_alias f) "" "")); [exact E3|now right].
Qed.
Print Assumptions C83_count_exactly.
(** COUNT of "age as years" counts the values of the column years, of "u.age as age" those of u.age *)
Example C83_count_exactly_example : exists b f g, b_shop = Ok b /\ made_b b /\ field "u.age as age" = Ok f /\ wf_field f /\ counted f f /\
  field "age as years" = Ok g /\ wf_field g /\ counted g (mkF "years" "" "").
Proof.
  destruct b_shop as [b|] eqn:E; [|discriminate]. exists b. do 2 eexists. split; [reflexivity|]. split; [exact (b_shop_made b E)|].
  split; [vm_compute; reflexivity|]. split; [by_field|]. split; [left; split; [now right|reflexivity]|].
  split; [vm_compute; reflexivity|]. split; [by_field|]. right. split; [intros [H|H]; discriminate|reflexivity].
Qed.
