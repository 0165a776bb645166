(** SpecSum.v -- specification of Merkle sum trees, independent of the model: each leaf has
    a fee, each node commits to the fees of its two halves. *)
From Verif Require Import Base SpecBinary.

Definition leaf : Type := (Z * list byte)%type.

(** The sum of all fees; also reduced modulo 2^64, as a wrapping u64 counter has it. *)
Definition total_fee (ls : list leaf) : Z := fold_right (fun l s => fst l + s) 0 ls.
Definition wrapped_fee (ls : list leaf) : Z := total_fee ls mod 2 ^ 64.

(** All fees are u64s. *)
Definition fees_ok (ls : list leaf) : Prop := Forall (fun l => 0 <= fst l < 2 ^ 64) ls.

(** The fees that a build profile can handle: release builds wrap around. *)
Definition fees_fit (pr : profile) (ls : list leaf) : Prop :=
  fees_ok ls /\ (overflow_checks pr = false \/ total_fee ls < 2 ^ 64).

Section Spec.
Variable H : list byte -> bytes32.
(** The fee of a list of leaves: [total_fee] or [wrapped_fee]. *)
Variable fee : list leaf -> Z.

Definition sum_leaf_input (l : leaf) : list byte := x00 :: u64_to_be_bytes (fst l) ++ snd l.
Definition sum_node_input (f : Z) (x : bytes32) (g : Z) (y : bytes32) : list byte :=
  x01 :: u64_to_be_bytes f ++ b32 x ++ u64_to_be_bytes g ++ b32 y.

(** MST({}) = Hash(), MST({(f, d)}) = Hash(0x00 || f || d),
    MST(D[n]) = Hash(0x01 || fee(D[0:k]) || MST(D[0:k]) || fee(D[k:n]) || MST(D[k:n])), with
    [k] the largest power of two below [n].  The fuel never runs out ([mst_split] in
    SumProofs.v is the defining equation). *)
Fixpoint mst_fuel (fuel : nat) (ls : list leaf) : bytes32 :=
  match ls with
  | [] => H []
  | [l] => H (sum_leaf_input l)
  | _ :: _ :: _ =>
      match fuel with
      | O => H []
      | S f =>
          let k := split_point (length ls) in
          H (sum_node_input (fee (firstn k ls)) (mst_fuel f (firstn k ls))
                            (fee (skipn k ls)) (mst_fuel f (skipn k ls)))
      end
  end.
Definition mst (ls : list leaf) : bytes32 := mst_fuel (length ls) ls.

(** All byte strings hashed when computing [mst ls]. *)
Fixpoint mst_inputs_fuel (fuel : nat) (ls : list leaf) : list (list byte) :=
  match ls with
  | [] => [[]]
  | [l] => [sum_leaf_input l]
  | _ :: _ :: _ =>
      match fuel with
      | O => []
      | S f =>
          let k := split_point (length ls) in
          sum_node_input (fee (firstn k ls)) (mst (firstn k ls)) (fee (skipn k ls)) (mst (skipn k ls))
            :: mst_inputs_fuel f (firstn k ls) ++ mst_inputs_fuel f (skipn k ls)
      end
  end.
Definition mst_inputs (ls : list leaf) : list (list byte) := mst_inputs_fuel (length ls) ls.

(** All byte strings hashed for the root of each non-empty prefix of [ls]. *)
Definition prefix_inputs (ls : list leaf) : list (list byte) :=
  concat (map (fun n => mst_inputs (firstn n ls)) (seq 1 (length ls))).

(** * Sequences of pushes and root requests *)
Inductive sum_op := Push (l : leaf) | Root.

(** What each root request should answer: fee and hash of the leaves pushed before it. *)
Fixpoint sum_answers (pushed : list leaf) (os : list sum_op) : list (Z * bytes32) :=
  match os with
  | [] => []
  | Push l :: os' => sum_answers (pushed ++ [l]) os'
  | Root :: os' => (fee pushed, mst pushed) :: sum_answers pushed os'
  end.
End Spec.

(** The leaves pushed by a sequence of operations. *)
Fixpoint pushed (os : list sum_op) : list leaf :=
  match os with
  | [] => []
  | Push l :: os' => l :: pushed os'
  | Root :: os' => pushed os'
  end.
