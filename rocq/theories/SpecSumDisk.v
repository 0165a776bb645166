(** SpecSumDisk.v -- the exact sequence of writes of a Merkle sum tree, and the storage content
    that results.  Independent of the model. *)
From Verif Require Import Base SpecBinary SpecSum.

(** Height, hash, fee, keys of the two children. *)
Definition sum_entry : Type := (Z * bytes32 * Z * option bytes32 * option bytes32)%type.
Definition sum_disk : Type := bytes32 -> option sum_entry.

(** A push after which [ls] are all leaves completes the aligned blocks that end with the new
    leaf: for each power of two that divides the number of leaves, that many last leaves. *)
Definition push_writes (ls : list leaf) : list (list leaf) :=
  let n := length ls in
  map (fun h => skipn (n - 2 ^ h) ls) (filter (fun h => n mod 2 ^ h =? 0)%nat (seq 0 (S (Nat.log2 n)))).

(** A root request joins the complete blocks, from the last one on: the last [n mod 2^(h+1)]
    leaves wherever these are a block of 2^h leaves and some more. *)
Definition root_writes (ls : list leaf) : list (list leaf) :=
  let n := length ls in
  map (fun h => skipn (n - n mod 2 ^ S h) ls) (filter (fun h => 2 ^ h <? n mod 2 ^ S h)%nat (seq 0 (S (Nat.log2 n)))).

(** The leaves under each node written by a sequence of operations after [ds]. *)
Fixpoint writes (ds : list leaf) (os : list sum_op) : list (list leaf) :=
  match os with
  | [] => []
  | Push l :: os' => push_writes (ds ++ [l]) ++ writes (ds ++ [l]) os'
  | Root :: os' => root_writes ds ++ writes ds os'
  end.

Section Disk.
Variable H : list byte -> bytes32.
Variable fee : list leaf -> Z.

(** The entry of the node over the leaves [ls]. *)
Definition entry_of (ls : list leaf) : sum_entry :=
  let k := split_point (length ls) in
  (Z.of_nat (Nat.log2_up (length ls)), mst H fee ls, fee ls,
   (if (length ls <=? 1)%nat then None else Some (mst H fee (firstn k ls))),
   (if (length ls <=? 1)%nat then None else Some (mst H fee (skipn k ls)))).

(** The writes one after the other. *)
Definition written (W : list (list leaf)) (d : sum_disk) : sum_disk :=
  fold_left (fun d ls k => if b32_eqb k (mst H fee ls) then Some (entry_of ls) else d k) W d.
End Disk.

(** The subtrees of the tree over [ds]: [ds] itself and the subtrees of its two parts. *)
Inductive subtree : list leaf -> list leaf -> Prop :=
| subtree_self : forall ds, subtree ds ds
| subtree_left : forall ds ls, (2 <= length ds)%nat ->
    subtree (firstn (split_point (length ds)) ds) ls -> subtree ds ls
| subtree_right : forall ds ls, (2 <= length ds)%nat ->
    subtree (skipn (split_point (length ds)) ds) ls -> subtree ds ls.
