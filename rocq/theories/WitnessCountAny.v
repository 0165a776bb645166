(** WitnessCountAny.v -- trees on a storage that answers every read with the same entry. *)
From Verif Require Import Base Sha256 Storage ModelCommon ModelBinary ModelSum SpecCount WitnessEnd.

(** Not code of the repository: no law holds of it. *)
Definition Parrot : StorageT unit Z BPrimitive Empty_set :=
  {| s_get := fun _ s => (s, Ok (Some (0, zero32)));
     s_insert := fun _ _ s => (s, Ok None);
     s_remove := fun _ s => (s, Ok None) |}.
(** One peak, but 2^62 leaves are claimed. *)
Definition bluff : BTree (counts * unit) :=
  Build_BTree (no_calls, tt) [{| bn_position := 0; bn_hash := zero32 |}] (2 ^ 62).
Lemma C113_binary_witness :
  (let '(t, r) := bt_prove sha256 Release (Counted Parrot) 5 bluff in
   match r with Val (Ok (_, ps)) => Z.of_nat (length ps) =? 63 | _ => false end = true /\
   fst (bt_storage t) = {| gets := 63; inserts := 0; removes := 0 |}) /\
  (let '(s, r) := bt_load Debug (Counted Parrot) (2 ^ 62 - 1) (no_calls, tt) in
   match r with Val (Ok t) => Z.of_nat (length (bt_head t)) =? 62 | _ => false end = true /\
   fst s = {| gets := 62; inserts := 0; removes := 0 |}) /\
  (let '(t, r) := bt_push sha256 Debug (Counted Parrot) [x01] (Build_BTree (no_calls, tt) [{| bn_position := 2; bn_hash := zero32 |}] 0) in
   r = Val (Ok tt) /\ fst (bt_storage t) = {| gets := 0; inserts := 2; removes := 0 |}).
Proof. vm_compute. repeat split. Qed.

Definition MParrot : StorageT unit bytes32 MNode Empty_set :=
  {| s_get := fun _ s => (s, Ok None); s_insert := fun _ v s => (s, Ok (Some v)); s_remove := fun _ s => (s, Ok None) |}.
Lemma C113_sum_witness :
  let t := Build_MTree (no_calls, tt) [odd_node; odd_node; odd_node] in
  match mt_root sha256 Debug (Counted MParrot) t with
  | (t', Val (Ok _)) => fst (mt_storage t') = {| gets := 0; inserts := 2; removes := 0 |} | _ => False end.
Proof. vm_compute. reflexivity. Qed.
