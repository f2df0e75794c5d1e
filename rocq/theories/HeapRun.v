(** Straight-line programs over the API, run on the heap and in the functional reading. *)
From Coq Require Import String Ascii List Bool Arith NArith ZArith Lia.
From Verif Require Import GoStr Value Names Cond Build Heap HeapFacts HeapOps HeapBuild.
Import ListNotations.
Local Open Scope string_scope.
Local Open Scope nat_scope.

(** * Programs *)

(** A program is a list of calls; operands are numbers of earlier calls.  A call that
    panics (or that is not well typed) yields no value, and the program goes on, as if
    the panic had been recovered. *)
Inductive op :=
| OLeaf (l : leaf)                        (* a condition constructor *)
| ONil                                    (* a nil Condition *)
| OGroup (j : string) (xs : list nat)     (* NewGroup(j, xs...) *)
| OJoinAll (j : string) (xs : list nat)   (* j.Join(xs...) *)
| OSetJoin (j : string) (x : nat)         (* x.Join(j) *)
| ONegate (b : bool) (x : nat)            (* x.Negate(b), Not(x) *)
| OBrackets (x : nat)                     (* x.WithBrackets() *)
| OAnd (x : nat) (ys : list nat)          (* And(x, ys...) *)
| OOr (x : nat) (ys : list nat)           (* Or(x, ys...) *)
| OMAnd (x : nat) (ys : list nat)         (* x.And(ys...) *)
| OMOr (x : nat) (ys : list nat)          (* x.Or(ys...) *)
| OSelect (p : tparam)                    (* SelectFrom(p) *)
| OBase (x : nat)                         (* x.BaseSelectBuilder *)
| OFields (x : nat) (fs : list fdef)
| OWhere (x : nat) (ys : list nat)
| OJoin (x : nat) (t : tident) (jt : Z) (l r : fdef)          (* x.Join(t, jt).On(l, r), base select *)
| OJoinName (x : nat) (tn : string) (jt : Z) (l r : fdef)     (* the same, select many and single *)
| OMany (x : nat) | OSingle (x : nat) | OCount (x : nat) (fs : list string)
| OOrder (x : nat) (os : list fsort) | OOffset (x : nat) (o : N) | OLimit (x : nat) (l : Z)
| OInsert (p : tparam) | OValues (x : nat) (vs : list fvalue)
| OUpdate (p : tparam) | OSet (x : nat) (vs : list fvalue)
| ODelete (p : tparam)
| OToUpdate (x : nat) (vs : list fvalue) | OToDelete (x : nat) | OToInsert (x : nat) (vs : list fvalue).

(** values on the heap and in the functional reading *)
Inductive hval := XC (c : hcond) | XB (b : hbsel) | XM (m : hmsel) | XS (s : hssel) | XN (c : hcsel) | XI (i : hins) | XU (u : hupd) | XD (d : hdel).
Inductive pval := YC (c : cond) | YB (b : bsel) | YM (m : msel) | YS (s : ssel) | YN (c : csel) | YI (i : ins) | YU (u : upd) | YD (d : del).

Definition look {V} (env : list (res V)) (x : nat) : res V := nth x env Panic.
Definition hcond_at (env : list (res hval)) (x : nat) : res hcond := do v <- look env x; match v with XC c => Ok c | _ => Panic end.
Definition pcond_at (env : list (res pval)) (x : nat) : res cond := do v <- look env x; match v with YC c => Ok c | _ => Panic end.

Section Run.
  Variable pol : policy.
  Definition hstep (env : list (res hval)) (o : op) : HM hval :=
    match o with
    | OLeaf l => hret (XC (HLeaf l))
    | ONil => hret (XC HNil)
    | OGroup j xs => act cs <- hlift (mapM (hcond_at env) xs); act g <- onC (h_new_group j cs); hret (XC (of_hg g))
    | OJoinAll j xs => act cs <- hlift (mapM (hcond_at env) xs); act c <- onC (h_jt_join j cs); hret (XC c)
    | OSetJoin j x => act c <- hlift (hcond_at env x); act c' <- onC (lift (h_cjoin j c)); hret (XC c')
    | ONegate b x => act c <- hlift (hcond_at env x); act c' <- onC (lift (h_negate b c)); hret (XC c')
    | OBrackets x =>
        act c <- hlift (hcond_at env x);
        match as_hgroup c with Some g => hret (XC (of_hg (hg_brackets g))) | None => hlift Panic end
    | OAnd x ys => act c <- hlift (hcond_at env x); act cs <- hlift (mapM (hcond_at env) ys); act r <- onC (h_and pol c cs); hret (XC r)
    | OOr x ys => act c <- hlift (hcond_at env x); act cs <- hlift (mapM (hcond_at env) ys); act r <- onC (h_or pol c cs); hret (XC r)
    | OMAnd x ys => act c <- hlift (hcond_at env x); act cs <- hlift (mapM (hcond_at env) ys); act r <- onC (h_m_and pol c cs); hret (XC r)
    | OMOr x ys => act c <- hlift (hcond_at env x); act cs <- hlift (mapM (hcond_at env) ys); act r <- onC (h_m_or pol c cs); hret (XC r)
    | OSelect p => act b <- h_select_from p; hret (XB b)
    | OBase x =>
        act v <- hlift (look env x);
        match v with XM m => hret (XB (hm_base m)) | XS s => hret (XB (hss_base s)) | _ => hlift Panic end
    | OFields x fs =>
        act v <- hlift (look env x);
        match v with
        | XB b => act b' <- h_set_fields b fs; hret (XB b')
        | XM m => act b' <- h_set_fields (hm_base m) fs; hret (XM (hm_set_base m b'))
        | XS _ => act z <- h_zero_bsel; act b' <- h_set_fields z fs; hret (XS (mkHSS b'))
        | _ => hlift Panic
        end
    | OWhere x ys =>
        act v <- hlift (look env x); act cs <- hlift (mapM (hcond_at env) ys);
        match v with
        | XB b => act b' <- h_add_where pol b cs; hret (XB b')
        | XM m => act b' <- h_add_where pol (hm_base m) cs; hret (XM (hm_set_base m b'))
        | XS s => act b' <- h_add_where pol (hss_base s) cs; hret (XS (mkHSS b'))
        | XU u => act u' <- h_u_where pol u cs; hret (XU u')
        | XD d => act d' <- h_d_where pol d cs; hret (XD d')
        | _ => hlift Panic
        end
    | OJoin x t jt l r =>
        act v <- hlift (look env x);
        match v with XB b => act b' <- h_join pol b t jt l r; hret (XB b') | _ => hlift Panic end
    | OJoinName x tn jt l r =>
        act v <- hlift (look env x);
        match v with
        | XM m => act t <- hlift (table tn); act b' <- h_join pol (hm_base m) t jt l r; hret (XM (hm_set_base m b'))
        | XS s => act t <- hlift (table tn); act b' <- h_join pol (hss_base s) t jt l r; hret (XS (mkHSS b'))
        | _ => hlift Panic
        end
    | OMany x => act v <- hlift (look env x); match v with XB b => act m <- h_many_of b; hret (XM m) | _ => hlift Panic end
    | OSingle x => act v <- hlift (look env x); match v with XB b => hret (XS (mkHSS b)) | _ => hlift Panic end
    | OCount x fs =>
        act v <- hlift (look env x);
        match v with
        | XB b => act f <- hlift (match fs with fn :: _ => field fn | [] => field "*" end); hret (XN (mkHCS b f))
        | _ => hlift Panic
        end
    | OOrder x os => act v <- hlift (look env x); match v with XM m => act m' <- h_add_order pol m os; hret (XM m') | _ => hlift Panic end
    | OOffset x o => act v <- hlift (look env x); match v with XM m => hret (XM (mkHM (hm_base m) o (hm_limit m) (hm_order m))) | _ => hlift Panic end
    | OLimit x l => act v <- hlift (look env x); match v with XM m => hret (XM (mkHM (hm_base m) (hm_offset m) l (hm_order m))) | _ => hlift Panic end
    | OInsert p => act i <- h_insert_into p; hret (XI i)
    | OValues x vs => act v <- hlift (look env x); match v with XI i => act i' <- h_i_add pol i vs; hret (XI i') | _ => hlift Panic end
    | OUpdate p => act u <- h_update_ p; hret (XU u)
    | OSet x vs => act v <- hlift (look env x); match v with XU u => act u' <- h_u_add pol u vs; hret (XU u') | _ => hlift Panic end
    | ODelete p => act d <- h_delete_ p; hret (XD d)
    | OToUpdate x vs =>
        act v <- hlift (look env x);
        match v with
        | XB b => act u <- h_to_update pol (TPIdent (hb_table b)) b vs; hret (XU u)
        | XM m => act u <- h_to_update pol (TPName (t_name (hb_table (hm_base m)))) (hm_base m) vs; hret (XU u)
        | XS s => act u <- h_to_update pol (TPIdent (hb_table (hss_base s))) (hss_base s) vs; hret (XU u)
        | _ => hlift Panic
        end
    | OToDelete x =>
        act v <- hlift (look env x);
        match v with
        | XB b => act d <- h_to_delete pol (TPIdent (hb_table b)) b; hret (XD d)
        | XM m => act d <- h_to_delete pol (TPName (t_name (hb_table (hm_base m)))) (hm_base m); hret (XD d)
        | XS s => act d <- h_to_delete pol (TPIdent (hb_table (hss_base s))) (hss_base s); hret (XD d)
        | _ => hlift Panic
        end
    | OToInsert x vs => act v <- hlift (look env x); match v with XB b => act i <- h_to_insert pol b vs; hret (XI i) | _ => hlift Panic end
    end.

  (** all values so far and the heap *)
  Fixpoint hrun (ops : list op) (env : list (res hval)) (h : heap) : list (res hval) * heap :=
    match ops with
    | [] => (env, h)
    | o :: r => let '(v, h') := hstep env o h in hrun r (env ++ [v])%list h'
    end.
End Run.

(** the functional reading of a call, by the definitions of Cond.v and Build.v *)
Definition pstep (env : list (res pval)) (o : op) : res pval :=
  match o with
  | OLeaf l => Ok (YC (CLeaf l))
  | ONil => Ok (YC CNil)
  | OGroup j xs => do cs <- mapM (pcond_at env) xs; do g <- new_group j cs; Ok (YC (of_g g))
  | OJoinAll j xs => do cs <- mapM (pcond_at env) xs; do c <- jt_join j cs; Ok (YC c)
  | OSetJoin j x => do c <- pcond_at env x; do c' <- c_join j c; Ok (YC c')
  | ONegate b x => do c <- pcond_at env x; do c' <- c_negate b c; Ok (YC c')
  | OBrackets x => do c <- pcond_at env x; match as_group c with Some g => Ok (YC (of_g (with_brackets g))) | None => Panic end
  | OAnd x ys => do c <- pcond_at env x; do cs <- mapM (pcond_at env) ys; do r <- and_ c cs; Ok (YC r)
  | OOr x ys => do c <- pcond_at env x; do cs <- mapM (pcond_at env) ys; do r <- or_ c cs; Ok (YC r)
  | OMAnd x ys => do c <- pcond_at env x; do cs <- mapM (pcond_at env) ys; do r <- m_and c cs; Ok (YC r)
  | OMOr x ys => do c <- pcond_at env x; do cs <- mapM (pcond_at env) ys; do r <- m_or c cs; Ok (YC r)
  | OSelect p => do b <- select_from p; Ok (YB b)
  | OBase x => do v <- look env x; match v with YM m => Ok (YB (m_base m)) | YS s => Ok (YB (ss_base s)) | _ => Panic end
  | OFields x fs =>
      do v <- look env x;
      match v with
      | YB b => Ok (YB (b_set_fields b fs))
      | YM m => Ok (YM (m_set_fields m fs))
      | YS s => Ok (YS (ss_set_fields s fs))
      | _ => Panic
      end
  | OWhere x ys =>
      do v <- look env x; do cs <- mapM (pcond_at env) ys;
      match v with
      | YB b => do b' <- b_add_where b cs; Ok (YB b')
      | YM m => do m' <- m_add_where m cs; Ok (YM m')
      | YS s => do s' <- ss_add_where s cs; Ok (YS s')
      | YU u => do u' <- u_add_where u cs; Ok (YU u')
      | YD d => do d' <- d_add_where d cs; Ok (YD d')
      | _ => Panic
      end
  | OJoin x t jt l r => do v <- look env x; match v with YB b => do b' <- b_join b t jt l r; Ok (YB b') | _ => Panic end
  | OJoinName x tn jt l r =>
      do v <- look env x;
      match v with
      | YM m => do m' <- m_join m tn jt l r; Ok (YM m')
      | YS s => do s' <- ss_join s tn jt l r; Ok (YS s')
      | _ => Panic
      end
  | OMany x => do v <- look env x; match v with YB b => Ok (YM (many_of b)) | _ => Panic end
  | OSingle x => do v <- look env x; match v with YB b => Ok (YS (single_of b)) | _ => Panic end
  | OCount x fs => do v <- look env x; match v with YB b => do c <- count b fs; Ok (YN c) | _ => Panic end
  | OOrder x os => do v <- look env x; match v with YM m => Ok (YM (m_add_order m os)) | _ => Panic end
  | OOffset x o => do v <- look env x; match v with YM m => Ok (YM (m_set_offset m o)) | _ => Panic end
  | OLimit x l => do v <- look env x; match v with YM m => Ok (YM (m_set_limit m l)) | _ => Panic end
  | OInsert p => Ok (YI (insert_into p))
  | OValues x vs => do v <- look env x; match v with YI i => Ok (YI (i_add i vs)) | _ => Panic end
  | OUpdate p => Ok (YU (update_ p))
  | OSet x vs => do v <- look env x; match v with YU u => Ok (YU (u_add u vs)) | _ => Panic end
  | ODelete p => Ok (YD (delete_ p))
  | OToUpdate x vs =>
      do v <- look env x;
      match v with
      | YB b => do u <- b_update b vs; Ok (YU u)
      | YM m => do u <- m_update m vs; Ok (YU u)
      | YS s => do u <- ss_update s vs; Ok (YU u)
      | _ => Panic
      end
  | OToDelete x =>
      do v <- look env x;
      match v with
      | YB b => do d <- b_delete b; Ok (YD d)
      | YM m => do d <- m_delete m; Ok (YD d)
      | YS s => do d <- ss_delete s; Ok (YD d)
      | _ => Panic
      end
  | OToInsert x vs => do v <- look env x; match v with YB b => Ok (YI (b_insert b vs)) | _ => Panic end
  end.
Fixpoint prun (ops : list op) (env : list (res pval)) : list (res pval) :=
  match ops with [] => env | o :: r => prun r (env ++ [pstep env o])%list end.

(** what a value says: the statement it builds; for a condition its text and values *)
Definition hsays (v : hval) (h : heap) (fuel : nat) : option (res out) :=
  match v with
  | XC c =>
      match h_render fuel (hC h) c 0, h_values fuel (hC h) c with
      | Some (Ok w), Some (Ok vs) => Some (Ok (ok w vs))
      | Some _, Some _ => Some Panic
      | _, _ => None
      end
  | XB b => h_b_build fuel h b
  | XM m => h_m_build fuel h m
  | XS s => h_ss_build fuel h s
  | XN c => h_cs_build fuel h c
  | XI i => Some (h_i_build h i)
  | XU u => h_u_build fuel h u
  | XD d => h_d_build fuel h d
  end.
Definition psays (v : pval) : res out :=
  match v with
  | YC c => do w <- c_render c 0; do vs <- c_values c; Ok (ok w vs)
  | YB b => b_build b
  | YM m => m_build m
  | YS s => ss_build s
  | YN c => cs_build c
  | YI i => i_build i
  | YU u => u_build u
  | YD d => d_build d
  end.

(** * Agreement *)
Definition VRep (h : heap) (v : hval) (p : pval) : Prop :=
  match v, p with
  | XC c, YC d => Rep (hC h) c d
  | XB b, YB d => RepB h b d
  | XM b, YM d => RepM h b d
  | XS b, YS d => RepS h b d
  | XN b, YN d => RepCS h b d
  | XI b, YI d => RepI h b d
  | XU b, YU d => RepU h b d
  | XD b, YD d => RepD h b d
  | _, _ => False
  end.
Lemma VRep_ext h h' v p : HExt h h' -> VRep h v p -> VRep h' v p.
Proof.
  intros X. destruct v, p; cbn [VRep]; try contradiction.
  - intros R. exact (Rep_ext _ _ (proj1 X) _ _ R).
  - intros R. exact (RepB_ext _ _ _ _ X R).
  - intros R. exact (RepM_ext _ _ _ _ X R).
  - intros R. exact (RepB_ext _ _ _ _ X R).
  - intros R. exact (RepCS_ext _ _ _ _ X R).
  - intros R. exact (RepI_ext _ _ _ _ X R).
  - intros R. exact (RepU_ext _ _ _ _ X R).
  - intros R. exact (RepD_ext _ _ _ _ X R).
Qed.
Lemma VRep_says h v p : VRep h v p -> yields (hsays v h) (psays p).
Proof.
  destruct v, p; cbn [VRep]; try contradiction; intros R.
  - exists (nodes c0). intros f N. cbn [hsays psays]. rewrite (render_rep _ f c0), (values_rep _ f c0) by assumption.
    destruct (c_render c0 0); cbn [bind]; [|reflexivity]. now destruct (c_values c0).
  - now apply build_b.
  - now apply build_m.
  - now apply build_s.
  - now apply build_c.
  - exists 0. intros f _. cbn. f_equal. now apply build_i.
  - now apply build_u.
  - now apply build_d.
Qed.
Definition ERep (h : heap) (he : list (res hval)) (pe : list (res pval)) : Prop := Forall2 (res_rel (VRep h)) he pe.
Lemma ERep_ext h h' he pe : HExt h h' -> ERep h he pe -> ERep h' he pe.
Proof.
  intros X R. induction R as [|v p he pe Rv R IH]; constructor; [|exact IH].
  destruct v, p; cbn in *; auto. now apply (VRep_ext h).
Qed.
Lemma ERep_look h he pe x : ERep h he pe -> res_rel (VRep h) (look he x) (look pe x).
Proof.
  intros R. revert x. induction R as [|v p he pe Rv R IH]; intros [|x]; cbn; auto. apply IH.
Qed.
Lemma ERep_cond h he pe x : ERep h he pe -> res_rel (Rep (hC h)) (hcond_at he x) (pcond_at pe x).
Proof.
  intros R. pose proof (ERep_look h he pe x R) as L. unfold hcond_at, pcond_at. destruct (look he x) as [v|], (look pe x) as [p|]; cbn [res_rel bind] in *; try contradiction; try exact I.
  destruct v, p; cbn [VRep] in *; try contradiction; try exact I. exact L.
Qed.
Lemma ERep_conds h he pe xs : ERep h he pe -> res_rel (Reps (hC h)) (mapM (hcond_at he) xs) (mapM (pcond_at pe) xs).
Proof.
  intros R. induction xs as [|x xs IH]; cbn [mapM]; [constructor|]. pose proof (ERep_cond h he pe x R) as C.
  destruct (hcond_at he x), (pcond_at pe x); cbn in C; try contradiction; cbn [bind]; [|exact I].
  destruct (mapM (hcond_at he) xs), (mapM (pcond_at pe) xs); cbn in IH; try contradiction; cbn; [|exact I]. now constructor.
Qed.

Lemma hagree_panic {X Y} (R : heap -> X -> Y -> Prop) h : hagree R h (hlift Panic) Panic.
Proof. intros _. cbn. split; [apply HExt_refl|exact I]. Qed.
Lemma hagree_rel_bind {X Y X' Y'} (Q : X -> Y -> Prop) (R' : heap -> X' -> Y' -> Prop) h r p k q :
  res_rel Q r p -> (forall x y, Q x y -> hagree R' h (k x) (q y)) -> hagree R' h (hbind (hlift r) k) (bind p q).
Proof.
  intros L K. destruct r as [x|], p as [y|]; cbn in L; try contradiction; [exact (K x y L)|]. apply (hagree_panic R').
Qed.
Lemma grows_jt_join j cs : grows (h_jt_join j cs).
Proof.
  destruct cs as [|c [|d cs]]; cbn [h_jt_join]; try apply grows_lift. apply (frames_grows (mkSl 0 0)).
  apply frames_bind; [apply frames_new_group|]. intros g. apply frames_ret.
Qed.
Lemma bind_assoc {A B C} (p : res A) (f : A -> res B) (g : B -> res C) :
  bind (bind p f) g = bind p (fun x => bind (f x) g).
Proof. destruct p; reflexivity. Qed.
Section Sound.
  Variable pol : policy.
  Lemma hgrows_select p : hgrows (h_select_from p). Proof. unfold h_select_from. hg. Qed.
  Lemma hgrows_zero : hgrows h_zero_bsel. Proof. unfold h_zero_bsel. hg. Qed.
  Lemma hgrows_fields b fs : hgrows (h_set_fields b fs). Proof. unfold h_set_fields. hg. Qed.
  Lemma hgrows_where b cs : hgrows (h_add_where pol b cs). Proof. unfold h_add_where, h_group_and. hg. Qed.
  Lemma hgrows_join b t jt l r : hgrows (h_join pol b t jt l r).
  Proof. unfold h_join, h_join_open. apply hgrows_bind; [hg|]. intros x. apply hgrows_on. Qed.
  Lemma hgrows_many b : hgrows (h_many_of b). Proof. unfold h_many_of. hg. Qed.
  Lemma hgrows_order m os : hgrows (h_add_order pol m os). Proof. unfold h_add_order. hg. Qed.
  Lemma hgrows_insert p : hgrows (h_insert_into p). Proof. unfold h_insert_into. hg. Qed.
  Lemma hgrows_update p : hgrows (h_update_ p). Proof. unfold h_update_. hg. Qed.
  Lemma hgrows_delete p : hgrows (h_delete_ p). Proof. unfold h_delete_. hg. Qed.
  Hint Resolve hgrows_select hgrows_zero hgrows_fields hgrows_where hgrows_join hgrows_many hgrows_order hgrows_insert hgrows_update hgrows_delete
    hgrows_u_where hgrows_d_where hgrows_u_add hgrows_i_add grows_jt_join grows_lift : hg.
  Lemma hgrows_to_update tp b vs : hgrows (h_to_update pol tp b vs). Proof. unfold h_to_update. hg. Qed.
  Lemma hgrows_to_delete tp b : hgrows (h_to_delete pol tp b). Proof. unfold h_to_delete. hg. Qed.
  Lemma hgrows_to_insert b vs : hgrows (h_to_insert pol b vs). Proof. unfold h_to_insert. hg. Qed.
  Lemma grows_and c cs : grows (h_and pol c cs). Proof. apply (spares_grows c), spares_and. Qed.
  Lemma grows_or c cs : grows (h_or pol c cs). Proof. apply (spares_grows c), spares_or. Qed.
  Lemma grows_m_and c cs : grows (h_m_and pol c cs). Proof. apply (spares_grows c), spares_m_and. Qed.
  Lemma grows_m_or c cs : grows (h_m_or pol c cs). Proof. apply (spares_grows c), spares_m_or. Qed.
  Hint Resolve hgrows_to_update hgrows_to_delete hgrows_to_insert grows_and grows_or grows_m_and grows_m_or : hg.
  Lemma hgrows_step env o : hgrows (hstep pol env o).
  Proof.
    destruct o; cbn [hstep]; hg;
    repeat match goal with
    | |- hgrows (match ?x with _ => _ end) => destruct x; hg
    end.
  Qed.

  Lemma step_agree h he pe o : ERep h he pe -> hagree VRep h (hstep pol he o) (pstep pe o).
  Proof.
    intros R.
    assert (LC : forall x, res_rel (Rep (hC h)) (hcond_at he x) (pcond_at pe x)) by (intros; now apply ERep_cond).
    assert (LS : forall xs, res_rel (Reps (hC h)) (mapM (hcond_at he) xs) (mapM (pcond_at pe) xs)) by (intros; now apply ERep_conds).
    assert (LV : forall x, res_rel (VRep h) (look he x) (look pe x)) by (intros; now apply ERep_look).
    assert (RC : forall h m p, hagree (fun h' x y => Rep (hC h') x y) h (onC m) p ->
      hagree VRep h (act c <- onC m; hret (XC c)) (do c <- p; Ok (YC c))).
    { intros h0 m p H. eapply hagree_bind; [exact H|hg|]. intros x y h' X Q. apply hagree_ret. exact Q. }
    Ltac val LV := eapply hagree_rel_bind; [apply LV|]; intros v p Rv; destruct v, p; cbn [VRep] in Rv; try contradiction; try (apply hagree_panic).
    Ltac fin := intros ? ? ? ? ?; apply hagree_ret; cbn [VRep]; auto.
    destruct o; cbn [hstep pstep].
    - apply hagree_ret. reflexivity.
    - apply hagree_ret. exact I.
    - eapply hagree_rel_bind; [apply LS|]. intros hs cs Q. eapply hagree_bind; [apply (hagree_onC RepG); now apply agree_new_group|hg|].
      intros g p h' X Rg. apply hagree_ret. now apply RepG_of.
    - eapply hagree_rel_bind; [apply LS|]. intros hs cs Q. apply RC. apply (hagree_onC Rep). now apply agree_jt_join.
    - eapply hagree_rel_bind; [apply LC|]. intros c d Q. apply RC. apply (hagree_onC Rep). apply agree_lift. exact (cjoin_agree _ j c d Q).
    - eapply hagree_rel_bind; [apply LC|]. intros c d Q. apply RC. apply (hagree_onC Rep). now apply agree_not.
    - eapply hagree_rel_bind; [apply LC|]. intros c d Q. pose proof (as_hgroup_agree _ c d Q) as G.
      destruct (as_hgroup c), (as_group d); try contradiction; [|apply hagree_panic]. apply hagree_ret. cbn [VRep]. now apply brackets_agree.
    - eapply hagree_rel_bind; [apply LC|]. intros c d Q. eapply hagree_rel_bind; [apply LS|]. intros hs cs Qs. apply RC. apply (hagree_onC Rep). now apply agree_and.
    - eapply hagree_rel_bind; [apply LC|]. intros c d Q. eapply hagree_rel_bind; [apply LS|]. intros hs cs Qs. apply RC. apply (hagree_onC Rep). now apply agree_or.
    - eapply hagree_rel_bind; [apply LC|]. intros c d Q. eapply hagree_rel_bind; [apply LS|]. intros hs cs Qs. apply RC. apply (hagree_onC Rep). now apply agree_m_and.
    - eapply hagree_rel_bind; [apply LC|]. intros c d Q. eapply hagree_rel_bind; [apply LS|]. intros hs cs Qs. apply RC. apply (hagree_onC Rep). now apply agree_m_or.
    - eapply hagree_bind; [apply agree_select|hg|]. fin.
    - val LV; apply hagree_ret; [apply Rv|exact Rv].
    - val LV.
      + eapply hagree_step; [apply agree_fields; exact Rv|hg|]. intros b' h' X Q. apply hagree_ret. exact Q.
      + destruct Rv as (Rb & E1 & E2 & D). eapply hagree_step; [apply agree_fields; exact Rb|hg|]. intros b' h' X Q. apply hagree_ret.
        split; [exact Q|]. repeat split; auto. apply (DenL_ext (hO h)); [apply X|exact D].
      + eapply hagree_step; [apply agree_zero|hg|]. intros z h' X Q. eapply hagree_step; [apply agree_fields; exact Q|hg|]. intros b' h2 X2 Q2. apply hagree_ret. exact Q2.
    - eapply hagree_rel_bind; [apply LV|]. intros v p Rv. eapply hagree_rel_bind; [apply LS|]. intros hs cs Qs.
      destruct v, p; cbn [VRep] in Rv; try contradiction; try (apply hagree_panic).
      + eapply hagree_bind; [apply agree_where; eassumption|hg|]. fin.
      + destruct Rv as (Rb & E1 & E2 & D). unfold m_add_where. rewrite bind_assoc. eapply hagree_bind; [apply agree_where; eassumption|hg|].
        intros x0 y h' X Q. apply hagree_ret. split; [exact Q|]. repeat split; auto. apply (DenL_ext (hO h)); [apply X|exact D].
      + unfold ss_add_where. rewrite bind_assoc. eapply hagree_bind; [apply agree_where; eassumption|hg|]. fin.
      + eapply hagree_bind; [apply agree_u_where; eassumption|hg|]. fin.
      + eapply hagree_bind; [apply agree_d_where; eassumption|hg|]. fin.
    - val LV. eapply hagree_bind; [apply agree_join; eassumption|hg|]. fin.
    - val LV.
      + destruct Rv as (Rb & E1 & E2 & D). unfold m_join. rewrite bind_assoc. apply hagree_lift_bind. intros t. rewrite bind_assoc.
        eapply hagree_bind; [apply agree_join; eassumption|hg|].
        intros x0 y h' X Q. apply hagree_ret. split; [exact Q|]. repeat split; auto. apply (DenL_ext (hO h)); [apply X|exact D].
      + unfold ss_join. rewrite bind_assoc. apply hagree_lift_bind. intros t. rewrite bind_assoc.
        eapply hagree_bind; [apply agree_join; eassumption|hg|]. fin.
    - val LV. eapply hagree_step; [apply agree_many; exact Rv|hg|]. intros m h' X Q. apply hagree_ret. exact Q.
    - val LV. apply hagree_ret. exact Rv.
    - val LV. unfold count. rewrite bind_assoc. apply hagree_lift_bind. intros f. apply hagree_ret. split; [exact Rv|reflexivity].
    - val LV. eapply hagree_step; [apply agree_order; exact Rv|hg|]. intros m1 h' X Q. apply hagree_ret. exact Q.
    - val LV. apply hagree_ret. destruct Rv as (Rb & E1 & E2 & D). repeat split; cbn; auto; apply Rb.
    - val LV. apply hagree_ret. destruct Rv as (Rb & E1 & E2 & D). repeat split; cbn; auto; apply Rb.
    - eapply hagree_step; [apply agree_insert|hg|]. intros m1 h' X Q. apply hagree_ret. exact Q.
    - val LV. eapply hagree_step; [apply agree_i_add; exact Rv|hg|]. intros m1 h' X Q. apply hagree_ret. exact Q.
    - eapply hagree_step; [apply agree_update|hg|]. intros m1 h' X Q. apply hagree_ret. exact Q.
    - val LV. eapply hagree_step; [apply agree_u_add; exact Rv|hg|]. intros m1 h' X Q. apply hagree_ret. exact Q.
    - eapply hagree_step; [apply agree_delete|hg|]. intros m1 h' X Q. apply hagree_ret. exact Q.
    - val LV.
      + rewrite (proj1 (proj2 Rv)). eapply hagree_bind; [apply agree_to_update; exact Rv|hg|]. fin.
      + destruct Rv as (Rb & _). rewrite (proj1 (proj2 Rb)). eapply hagree_bind; [apply agree_to_update; exact Rb|hg|]. fin.
      + rewrite (proj1 (proj2 Rv)). eapply hagree_bind; [apply agree_to_update; exact Rv|hg|]. fin.
    - val LV.
      + rewrite (proj1 (proj2 Rv)). eapply hagree_bind; [apply agree_to_delete; exact Rv|hg|]. fin.
      + destruct Rv as (Rb & _). rewrite (proj1 (proj2 Rb)). eapply hagree_bind; [apply agree_to_delete; exact Rb|hg|]. fin.
      + rewrite (proj1 (proj2 Rv)). eapply hagree_bind; [apply agree_to_delete; exact Rv|hg|]. fin.
    - val LV. eapply hagree_step; [apply agree_to_insert; exact Rv|hg|]. intros m1 h' X Q. apply hagree_ret. exact Q.
  Qed.

  Lemma hrun_grows ops : forall env h, stale (snd (hrun pol ops env h)) = false -> stale h = false.
  Proof.
    induction ops as [|o ops IH]; intros env h; cbn [hrun]; [auto|]. pose proof (hgrows_step env o h) as G.
    destruct (hstep pol env o h) as [v h']. cbn [snd] in G. intros NS. apply G. exact (IH _ _ NS).
  Qed.
  Theorem run_agree ops : forall he pe h, ERep h he pe -> stale (snd (hrun pol ops he h)) = false ->
    ERep (snd (hrun pol ops he h)) (fst (hrun pol ops he h)) (prun ops pe).
  Proof.
    induction ops as [|o ops IH]; intros he pe h R; cbn [hrun prun]; [intros _; exact R|].
    pose proof (step_agree h he pe o R) as S. unfold hagree in S. destruct (hstep pol he o h) as [v h'] eqn:E. cbn [fst snd] in S.
    intros NS. destruct (S (hrun_grows _ _ _ NS)) as [X Q]. apply IH; [|exact NS].
    apply Forall2_app; [exact (ERep_ext _ _ _ _ X R)|]. constructor; [|constructor]. exact Q.
  Qed.
End Sound.
