(** Call histories on the builders and what they ask for. *)
From Coq Require Import String Ascii List Bool Arith NArith ZArith.
From Verif Require Import GoStr Value Names Cond Build Spec.
Import ListNotations.
Local Open Scope string_scope.
Local Open Scope nat_scope.

(** * Calls *)

(** BaseSelectBuilder: Fields, Where and Join(table).On(l, r) *)
Inductive bcall :=
| BFields (fs : list fdef)
| BWhere (cs : list cond)
| BJoin (t : tident) (jt : Z) (l r : fdef).
Definition b_call (b : bsel) (c : bcall) : res bsel :=
  match c with
  | BFields fs => Ok (b_set_fields b fs)
  | BWhere cs => b_add_where b cs
  | BJoin t jt l r => b_join b t jt l r
  end.

(** SelectManyBuilder *)
Inductive mcall :=
| MFields (fs : list fdef)
| MWhere (cs : list cond)
| MJoin (tn : string) (jt : Z) (l r : fdef)
| MOrder (os : list fsort)
| MOffset (o : N)
| MLimit (l : Z).
Definition m_call (m : msel) (c : mcall) : res msel :=
  match c with
  | MFields fs => Ok (m_set_fields m fs)
  | MWhere cs => m_add_where m cs
  | MJoin tn jt l r => m_join m tn jt l r
  | MOrder os => Ok (m_add_order m os)
  | MOffset o => Ok (m_set_offset m o)
  | MLimit l => Ok (m_set_limit m l)
  end.

(** SelectSingleBuilder *)
Inductive scall :=
| SFields (fs : list fdef)
| SWhere (cs : list cond)
| SJoin (tn : string) (jt : Z) (l r : fdef).
Definition s_call (s : ssel) (c : scall) : res ssel :=
  match c with
  | SFields fs => Ok (ss_set_fields s fs)
  | SWhere cs => ss_add_where s cs
  | SJoin tn jt l r => ss_join s tn jt l r
  end.

(** InsertBuilder: Values; UpdateBuilder: Set and Where; DeleteBuilder: Where *)
Definition i_call (i : ins) (vs : list fvalue) : res ins := Ok (i_add i vs).
Inductive ucall := USet (vs : list fvalue) | UWhere (cs : list cond).
Definition u_call (u : upd) (c : ucall) : res upd :=
  match c with
  | USet vs => Ok (u_add u vs)
  | UWhere cs => u_add_where u cs
  end.

(** * What a history asks for *)

(** the last value set, or the initial one *)
Fixpoint last_of {A B} (f : A -> option B) (init : B) (h : list A) : B :=
  match h with
  | [] => init
  | x :: r => last_of f (match f x with Some y => y | None => init end) r
  end.

Definition bc_fields (c : bcall) : option (list fdef) := match c with BFields fs => Some fs | _ => None end.
Definition bc_where (c : bcall) : list (list cond) := match c with BWhere cs => [cs] | _ => [] end.
Definition bc_join (c : bcall) : list joiner := match c with BJoin t jt l r => [mkJ t jt (mkJC l r)] | _ => [] end.

Definition mc_fields (c : mcall) : option (list fdef) := match c with MFields fs => Some fs | _ => None end.
Definition mc_where (c : mcall) : list (list cond) := match c with MWhere cs => [cs] | _ => [] end.
Definition mc_join (c : mcall) : list joiner :=
  match c with
  | MJoin tn jt l r => match table tn with Ok t => [mkJ t jt (mkJC l r)] | Panic => [] end
  | _ => []
  end.
Definition mc_order (c : mcall) : list fsort := match c with MOrder os => os | _ => [] end.
Definition mc_offset (c : mcall) : option N := match c with MOffset o => Some o | _ => None end.
Definition mc_limit (c : mcall) : option Z := match c with MLimit l => Some l | _ => None end.

Definition sc_where (c : scall) : list (list cond) := match c with SWhere cs => [cs] | _ => [] end.
Definition sc_join (c : scall) : list joiner :=
  match c with
  | SJoin tn jt l r => match table tn with Ok t => [mkJ t jt (mkJC l r)] | Panic => [] end
  | _ => []
  end.

Definition uc_set (c : ucall) : list fvalue := match c with USet vs => vs | _ => [] end.
Definition uc_where (c : ucall) : list (list cond) := match c with UWhere cs => [cs] | _ => [] end.

(** The condition that a chain of Where calls asks for: nothing if no condition was
    given, otherwise what And on an empty group makes of the arguments. *)
Definition wanted (css : list (list cond)) (c : option cond) : Prop :=
  match c with
  | None => concat css = []
  | Some c => concat css <> [] /\ calls m_and (CGrp AND false [] false) css = Ok c
  end.
