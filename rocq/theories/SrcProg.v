(** The package as read from its source text. *)
From Coq Require Import String List.
From Verif Require Import SrcAst SrcParse SrcText.
Import ListNotations.
Local Open Scope string_scope.

Fixpoint parse_all (l : list (string * string)) : option (list decl) :=
  match l with
  | [] => Some []
  | (_, s) :: r =>
    match parse s, parse_all r with
    | Some a, Some b => Some (a ++ b)%list
    | _, _ => None
    end
  end.

Definition parsed : option (list decl) := parse_all files.

(** What is declared in all the files together. *)
Definition decls : list decl.
Proof.
  let r := eval vm_compute in parsed in
  match r with Some ?l => exact l end.
Defined.

(** All the files are read, and this is what stands in them. *)
Theorem decls_read : parse_all files = Some decls.
Proof. vm_compute. reflexivity. Qed.

(** The functions and methods, and the types. *)
Definition funcs_of (l : list decl) : list (string * func) :=
  flat_map (fun d => match d with DFunc k f => [(k, f)] | _ => [] end) l.
Definition types_of (l : list decl) : list (string * tdef) :=
  flat_map (fun d => match d with DType n t => [(n, t)] | _ => [] end) l.

Definition pkg_funcs : list (string * func) := Eval vm_compute in funcs_of decls.
Definition pkg_types : list (string * tdef) := Eval vm_compute in types_of decls.
Definition pkg_keys : list string := Eval vm_compute in map fst (funcs_of decls).

Lemma pkg_funcs_read : pkg_funcs = funcs_of decls.
Proof. vm_compute. reflexivity. Qed.
Lemma pkg_types_read : pkg_types = types_of decls.
Proof. vm_compute. reflexivity. Qed.
Lemma pkg_keys_read : pkg_keys = map fst pkg_funcs.
Proof. vm_compute. reflexivity. Qed.
