(** What it means for a call in the source to end in some way. *)
From Coq Require Import String List Arith Lia.
From Verif Require Import SrcSem Open.
Local Open Scope nat_scope.

(** A call of the function [f] of the source with [args] ends with [r]: it returns a value, or it
    panics.  The number bounds the depth of calls; whatever the bound, if it is large enough, the
    outcome is the same. *)
Definition calls {S} (i : impl S) (f : string) (args : list (val S)) (r : rr (val S)) : Prop :=
  exists k, forall n, k <= n -> run i n f args = r.
(** A call of the method [m] of the value [v], which is found by the type of the value. *)
Definition asks {S} (i : impl S) (v : val S) (m : string) (args : list (val S)) (r : rr (val S)) : Prop :=
  exists k, forall n, k <= n -> mcall i (run i n) v m args = r.
Lemma from_enough : forall k n, k <= n -> exists m, n = k + m.
Proof. intros k n H. exists (n - k). lia. Qed.
Lemma calls_at : forall {S} (i : impl S) k f args r, (forall n, run i (k + n) f args = r) -> calls i f args r.
Proof. intros S i k f args r H. exists k. intros n Hn. destruct (from_enough k n Hn) as [m ->]. apply H. Qed.
Lemma asks_at : forall {S} (i : impl S) k v m args r, (forall n, mcall i (run i (k + n)) v m args = r) -> asks i v m args r.
Proof. intros S i k v m args r H. exists k. intros n Hn. destruct (from_enough k n Hn) as [x ->]. apply H. Qed.
Lemma calls_once : forall {S} (i : impl S) f args r r', calls i f args r -> calls i f args r' -> r = r'.
Proof.
  intros S i f args r r' [k H] [k' H']. rewrite <- (H (k + k')) by lia. apply H'. lia.
Qed.

