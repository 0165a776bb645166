(** SpecSumAny.v -- what a sum tree may answer and store when its storage fails: specification,
    independent of the model. *)
From Verif Require Import Base SpecBinary SpecSum.

Section Spec.
Variable H : list byte -> bytes32.
Notation mst := (mst H wrapped_fee).

(** [sum_history ds os rs ds']: a tree of the leaves [ds] may answer the calls [os] with [rs] and
    is then the tree of [ds'].  Pushes answer [Ok None], root requests [Ok (Some root)].  A failed
    push leaves the tree as it was or, if it had an odd number of leaves, empty. *)
Inductive sum_history {E : Type} :
  list leaf -> list sum_op -> list (result E (option (Z * bytes32))) -> list leaf -> Prop :=
| SH_end : forall ds, sum_history ds [] [] ds
| SH_push : forall ds x os rs ds', sum_history (ds ++ [x]) os rs ds' ->
    sum_history ds (Push x :: os) (Ok None :: rs) ds'
| SH_failed : forall ds x e os rs ds', sum_history ds os rs ds' ->
    sum_history ds (Push x :: os) (Err e :: rs) ds'
| SH_lost : forall ds x e os rs ds', Nat.Odd (length ds) -> sum_history [] os rs ds' ->
    sum_history ds (Push x :: os) (Err e :: rs) ds'
| SH_root : forall ds os rs ds', sum_history ds os rs ds' ->
    sum_history ds (Root :: os) (Ok (Some (wrapped_fee ds, mst ds)) :: rs) ds'
| SH_no_root : forall ds e os rs ds', sum_history ds os rs ds' ->
    sum_history ds (Root :: os) (Err e :: rs) ds'.

(** All ways to drop some leaves of a list. *)
Fixpoint sublists (ls : list leaf) : list (list leaf) :=
  match ls with
  | [] => [[]]
  | l :: ls' => map (cons l) (sublists ls') ++ sublists ls'
  end.

(** The stored entry of a non-empty list of leaves: height, hash, fee and, if there are at least
    two leaves, the hashes of the two halves. *)
Definition sum_entry (ls : list leaf) : Z * bytes32 * Z * option bytes32 * option bytes32 :=
  let k := split_point (length ls) in
  (Z.of_nat (Nat.log2_up (length ls)), mst ls, wrapped_fee ls,
   if (length ls <=? 1)%nat then None else Some (mst (firstn k ls)),
   if (length ls <=? 1)%nat then None else Some (mst (skipn k ls))).

(** All byte strings hashed for the trees of sublists of [ls]. *)
Definition sublist_inputs (ls : list leaf) : list (list byte) :=
  concat (map (mst_inputs H wrapped_fee) (filter (fun l => negb (length l =? 0)%nat) (sublists ls))).
End Spec.
