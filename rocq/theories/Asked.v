(** How often a condition is asked for its values.  A driver.Valuer, a ValueProvider or a
    user-written condition may answer differently each time, so here an oracle gives the
    answer to each call of Values() on a leaf, knowing how many calls came before; the calls
    are logged. *)
From Coq Require Import String Ascii List Bool Arith NArith ZArith.
From Verif Require Import GoStr Value Names Cond Build.
Import ListNotations.
Local Open Scope string_scope.
Local Open Scope nat_scope.

Definition oracle := nat -> leaf -> res (list gval).

(** group.go:297-305 Values: every condition is asked once, in order; the result carries
    the log of all calls so far, the last one at the end *)
Fixpoint o_values (o : oracle) (c : cond) (i : list leaf) : res (list gval * list leaf) :=
  match c with
  | CNil => Panic
  | CLeaf l => do vs <- o (length i) l; Ok (vs, (i ++ [l])%list)
  | CGrp _ _ cs _ =>
      (fix go (cs : list cond) (i : list leaf) : res (list gval * list leaf) :=
         match cs with
         | [] => Ok ([], i)
         | c :: r => do v <- o_values o c i; do vs <- go r (snd v); Ok ((fst v ++ fst vs)%list, snd vs)
         end) cs i
  end.

(** lib_in.go:46-64 Render: Values() is called for the length of the slice and again for
    the loop; a longer second answer is an index out of range, a shorter one leaves empty
    strings.  The other types do not call Values() (lib_*.go). *)
Definition o_leaf_render (o : oracle) (l : leaf) (n : nat) (i : list leaf) : res (string * list leaf) :=
  match l_kind l with
  | KIn =>
      do a <- o (length i) l;
      do b <- o (S (length i)) l;
      if length b <=? length a then
        Ok (word_render "IN" ("(" ++ join "," (map (fun k => if k <? length b then dollar (n + k + 1) else "") (seq 0 (length a))) ++ ")") l, (i ++ [l; l])%list)
      else Panic
  | _ => do s <- leaf_render l n; Ok (s, i)
  end.

(** group.go:231-261 Render: after each condition its Values() are asked for their number *)
Fixpoint o_render (o : oracle) (c : cond) (n : nat) (i : list leaf) : res (string * list leaf) :=
  match c with
  | CNil => Panic
  | CLeaf l => o_leaf_render o l n i
  | CGrp _ ng cs br =>
      match cs with
      | [] => Ok ("", i)
      | _ =>
          do p <-
            (fix go (first : bool) (cs : list cond) (n : nat) (i : list leaf) : res (string * list leaf) :=
               match cs with
               | [] => Ok ("", i)
               | c :: r =>
                   do j <- jtype c;
                   do s <- o_render o c n i;
                   do vs <- o_values o c (snd s);
                   do rest <- go false r (n + length (fst vs)) (snd vs);
                   Ok (join_token first j ++ fst s ++ fst rest, snd rest)
               end) true cs n i;
          Ok (wrap ng br (1 <? length cs) (fst p), snd p)
      end
  end.

(** select_base.go:90-109 and delete.go:28-48 BuildQueryAndParams: Render, then Values *)
Definition o_build (o : oracle) (b : bsel) : res (out * list leaf) :=
  if nonempty (g_cs (b_where b)) then
    do w <- o_render o (of_g (b_where b)) 0 [];
    do vs <- o_values o (of_g (b_where b)) (snd w);
    Ok (ok (join " " (b_tokens b ++ ["WHERE"; fst w])%list) (fst vs), snd vs)
  else Ok (ok (join " " (b_tokens b)) [], []).
(** select_many.go:27-52, select_single.go:15-18, count.go:22-36, update.go:54-80
    BuildQueryAndParams; the values to set are asked once (update.go:41-50) and kept
    as in Build.v *)
Definition o_many (o : oracle) (m : msel) : res (out * list leaf) :=
  do p <- o_build o (m_base m);
  let sql := o_sql (fst p) ++ order_clause (m_order m) in
  let params := o_params (fst p) in
  let '(sql, params) :=
    if (0 <? m_offset m)%N
    then let params := (params ++ [VUint (m_offset m)])%list in
         (sql ++ " OFFSET $" ++ itoa (length params), params)
    else (sql, params) in
  let '(sql, params) :=
    if (0 <? m_limit m)%Z
    then let params := (params ++ [VUint (Z.to_N (m_limit m))])%list in
         (sql ++ " LIMIT $" ++ itoa (length params), params)
    else (sql, params) in
  Ok (ok sql params, snd p).
Definition o_single (o : oracle) (s : ssel) : res (out * list leaf) :=
  do p <- o_build o (ss_base s); Ok (ok (o_sql (fst p) ++ " LIMIT 1") (o_params (fst p)), snd p).
Definition o_count (o : oracle) (c : csel) : res (out * list leaf) :=
  let toks := [op_string DoSelect; "COUNT" ++ "(" ++ render_field (cs_field c) ++ ")"; "FROM";
               b_render_from (cs_base c)] in
  if nonempty (g_cs (b_where (cs_base c))) then
    do w <- o_render o (of_g (b_where (cs_base c))) 0 [];
    do vs <- o_values o (of_g (b_where (cs_base c))) (snd w);
    Ok (ok (join " " (toks ++ ["WHERE"; fst w])%list) (fst vs), snd vs)
  else Ok (ok (join " " toks) [], []).
Definition o_update (o : oracle) (u : upd) : res (out * list leaf) :=
  if negb (nonempty (g_cs (u_where u))) then Ok (fail ENoConditions, [])
  else if negb (nonempty (u_values u)) then Ok (fail ENoValues, [])
  else if is_empty (u_table u) then Ok (fail ENoTable, [])
  else
    do t <- fields_and_values (u_values u);
    let '(sets, params) := t in
    do w <- o_render o (of_g (u_where u)) (length params) [];
    do vs <- o_values o (of_g (u_where u)) (snd w);
    Ok (ok (join " " ["UPDATE"; u_table u; "SET"; sets; "WHERE"; fst w]) (params ++ fst vs)%list, snd vs).
Definition o_delete (o : oracle) (d : del) : res (out * list leaf) :=
  if negb (nonempty (g_cs (d_where d))) then Ok (fail ENoConditions, [])
  else if is_empty (d_table d) then Ok (fail ENoTable, [])
  else
    do w <- o_render o (of_g (d_where d)) 0 [];
    do vs <- o_values o (of_g (d_where d)) (snd w);
    Ok (ok (join " " ["DELETE"; "FROM"; d_table d; "WHERE"; fst w]) (fst vs), snd vs).
