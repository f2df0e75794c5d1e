(** select_many.go and join_unfinished.go, run from their source: joins and orderings. *)
From Coq Require Import String Ascii List Bool Arith NArith ZArith Lia.
From Verif Require Import GoStr StrFacts Value Names Cond Build SrcAst SrcSem SrcProg Surface Open SrcFacts SrcNames SrcNamesB SrcNamesC SrcLoops SrcValues SrcConds SrcGroups SrcAddGroup SrcAdding SrcAddingB SrcAddingC SrcLeafRender SrcLeafSQL SrcTree SrcTreeRender SrcTreeSQL SrcWhere SrcBuilders SrcWrite SrcSelect SrcSelectB SrcBuild SrcMany.
Import ListNotations.
Local Open Scope string_scope.
Local Open Scope nat_scope.

Ltac known ::= first [known_joined | known_numbers | known_dispatch | known_joins | known_groups | known_sums | known_lists | known_base | known_names | known_build].
(** select_many.go:135-139 joinIdent, 144-146 Join: the join that On is to complete *)
Definition m_join_ident (m : msel) (t : tident) (jt : Z) : msel := m_set_base m (b_join_open (m_base m) t jt).
Definition m_join_open (m : msel) (tn : string) (jt : Z) : res msel := do t <- table tn; Ok (m_join_ident m t jt).
(** join_unfinished.go:29-35 On *)
Definition m_on (m : msel) (l r : fdef) : res msel := do b <- b_on (m_base m) l r; Ok (m_set_base m b).

Lemma fsorts_app : forall {S} a b, @fsorts S (a ++ b) = (fsorts a ++ fsorts b)%list.
Proof. intros. unfold fsorts. apply map_app. Qed.
Ltac known_order :=
  match goal with
  | |- context [@nth_error (val ?S) (fsorts (map ?h ?d) ++ ?v :: ?r)%list (length ?d)] => rewrite (@nth_at S (fsorts (map h d)) v r (length d)) by (rewrite fsorts_length, map_length; reflexivity)
  | |- context [@update ?S (fsorts (map ?h ?d) ++ ?v :: ?r)%list (length ?d) ?w] => rewrite (@update_at S (fsorts (map h d)) v r w (length d)) by (rewrite fsorts_length, map_length; reflexivity)
  | |- context [run ?i _ "FieldSorting.ApplyFieldSpec" [?v; ?l]] => let d := fsort_of v in let x := fdef_of l in use (fun n => src_FieldSorting_ApplyFieldSpec i n d x)
  | |- context [run ?i _ "FieldSorting.applyFieldTable" [?v; RStr ?y ?l]] => let d := fsort_of v in use (fun n => src_FieldSorting_applyFieldTable i n d y l)
  end.
Ltac known ::= first [known_order | known_joined | known_numbers | known_dispatch | known_joins | known_groups | known_sums | known_lists | known_base | known_names | known_build].
Ltac reorder h os :=
  lazymatch goal with
  | S : Type |- context [RStruct "SelectManyBuilder" [?bs; ?of; ?li; _; ?ts]] =>
    range (@of_fsort S) os "query" (fun done rest : list fsort =>
      RStruct (S := S) "SelectManyBuilder" [bs; of; li; ("order", RSlice (fsorts (map h done) ++ map of_fsort rest)%list); ts])
  end.
Ltac reordered :=
  rewrite ?map_app, ?fsorts_app, <- ?app_assoc; cbn [map]; 
  try match goal with h := _ |- _ => subst h end; cbn beta; cbn [s_def f_name]; repeat hx; reflexivity.
Section Many.
Context {S : Type} (i : impl S).
Lemma src_SelectManyBuilder_joinIdent : forall n m w t y jt,
  run i (S1 n) "SelectManyBuilder.joinIdent" [of_msel m w; of_tident t; RInt y jt] = Done (of_mjoin (m_join_ident m t jt) w).
Proof. intros. unfold of_mjoin, m_join_ident, b_join_open. bopen. enter. walk. rewrite joiners_snoc. reflexivity. Qed.
Lemma src_SelectManyBuilder_Join : forall n m w y tn z jt,
  run i (S4 n) "SelectManyBuilder.Join" [of_msel m w; RStr y tn; RInt z jt] = of_res (fun m => of_mjoin m w) (m_join_open m tn jt).
Proof.
  intros n m w y tn z jt. unfold m_join_open.
  pose proof (fun t => src_SelectManyBuilder_joinIdent (S2 n) m w t "TableJoinType" jt) as H.
  destruct (table tn) as [t|] eqn:E; cbn [bind of_res] in *.
  - specialize (H t). unfold of_mjoin, m_join_ident, b_join_open in *. bopen. bopen_in H. enter. walk; [|discriminate].
    inversion E. subst. walk. reflexivity.
  - clear H. bopen. enter. walk; [discriminate|reflexivity].
Qed.
Ltac fixed_join jt :=
  intros n m w y tn; pose proof (src_SelectManyBuilder_Join n m w "TableName" tn "TableJoinType" jt) as H;
  destruct (m_join_open m tn jt) as [m'|];
  unfold of_mjoin, InnerJoin, LeftJoin, RightJoin, FullJoin in *; cbn [of_res] in *; bopen; bopen_in H; enter; walk; reflexivity.
Lemma src_SelectManyBuilder_InnerJoin : forall n m w y tn,
  run i (S5 n) "SelectManyBuilder.InnerJoin" [of_msel m w; RStr y tn] = of_res (fun m => of_mjoin m w) (m_join_open m tn InnerJoin).
Proof. fixed_join InnerJoin. Qed.
Lemma src_SelectManyBuilder_LeftJoin : forall n m w y tn,
  run i (S5 n) "SelectManyBuilder.LeftJoin" [of_msel m w; RStr y tn] = of_res (fun m => of_mjoin m w) (m_join_open m tn LeftJoin).
Proof. fixed_join LeftJoin. Qed.
Lemma src_SelectManyBuilder_RightJoin : forall n m w y tn,
  run i (S5 n) "SelectManyBuilder.RightJoin" [of_msel m w; RStr y tn] = of_res (fun m => of_mjoin m w) (m_join_open m tn RightJoin).
Proof. fixed_join RightJoin. Qed.
Lemma src_SelectManyBuilder_FullJoin : forall n m w y tn,
  run i (S5 n) "SelectManyBuilder.FullJoin" [of_msel m w; RStr y tn] = of_res (fun m => of_mjoin m w) (m_join_open m tn FullJoin).
Proof. fixed_join FullJoin. Qed.
Lemma src_incompleteManyJoiner_On : forall n m w l r,
  run i (S3 n) "incompleteManyJoiner.On" [of_mjoin m w; of_fdef l; of_fdef r] = of_res (fun m => of_msel m w) (m_on m l r).
Proof.
  intros n [[o t js fs w0] of li os] w l r. unfold of_mjoin, m_on, b_on. cbn [m_base b_joins].
  destruct (list_rev_case js) as [->|(r0 & j & ->)].
  - bopen. enter. walk. reflexivity.
  - rewrite on_last_snoc. bopen. rewrite joiners_snoc. enter. walk. cbn [bind of_res]. bopen. rewrite joiners_snoc. reflexivity.
Qed.
Lemma src_SelectManyBuilder_applySpecToOrdering : forall n m w f,
  run i (S3 n) "SelectManyBuilder.applySpecToOrdering" [of_msel m w; of_fdef f] = Done (of_msel (m_spec_order m f) w).
Proof.
  intros n [b o l os] w f. unfold m_spec_order, m_set_order. bopen. enter. walk.
  lazymatch goal with |- at_ _ _ _ ?r => set (R := r) end.
  set (h := fun x => if str_eqb f_name (Names.f_name (s_def x)) then s_apply_spec x (mkF f_name f_table f_alias) else x).
  reorder h os.
  - walk. all: apply H. all: reordered.
  - subst R h. walk. reflexivity.
Qed.
Lemma src_SelectManyBuilder_applyFieldTableToOrdering : forall n m w y t,
  run i (S3 n) "SelectManyBuilder.applyFieldTableToOrdering" [of_msel m w; RStr y t] = Done (of_msel (m_table_order m t) w).
Proof.
  intros n [b o l os] w y f. unfold m_table_order, m_set_order. bopen. enter. walk.
  lazymatch goal with |- at_ _ _ _ ?r => set (R := r) end. set (h := fun x => s_apply_table x f).
  reorder h os.
  - walk. all: apply H. all: reordered.
  - subst R h. walk. reflexivity.
Qed.
End Many.
