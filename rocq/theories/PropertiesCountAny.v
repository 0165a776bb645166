(** PropertiesCountAny.v -- how often trees call their storage, for any tree value and any
    storage.  No law of storages, no hash assumption.  For the sparse tree see C63. *)
From Verif Require Import Base Sha256 Storage ModelCommon ModelBinary ModelSum SpecCount WitnessEnd CountAny WitnessCountAny.

(** Push writes only, prove and load read only. *)
Theorem C113_binary : forall H pr St E (st : StorageT St Z BPrimitive E) t,
  (forall d t' o, bt_push H pr (Counted st) d t = (t', o) ->
     at_most 0 (1 + length (bt_head t)) 0 (fst (bt_storage t)) (fst (bt_storage t'))) /\
  (forall i t' o, bt_prove H pr (Counted st) i t = (t', o) -> at_most 65 0 0 (fst (bt_storage t)) (fst (bt_storage t'))) /\
  (forall n s s' o, bt_load pr (Counted st) n s = (s', o) -> at_most 65 0 0 (fst s) (fst s')).
Proof. exact @C113_binary_lemma. Qed.
Print Assumptions C113_binary.

Example C113_binary_example :
  (let '(t, r) := bt_prove sha256 Release (Counted Parrot) 5 bluff in
   match r with Val (Ok (_, ps)) => Z.of_nat (length ps) =? 63 | _ => false end = true /\
   fst (bt_storage t) = {| gets := 63; inserts := 0; removes := 0 |}) /\
  (let '(s, r) := bt_load Debug (Counted Parrot) (2 ^ 62 - 1) (no_calls, tt) in
   match r with Val (Ok t) => Z.of_nat (length (bt_head t)) =? 62 | _ => false end = true /\
   fst s = {| gets := 62; inserts := 0; removes := 0 |}) /\
  (let '(t, r) := bt_push sha256 Debug (Counted Parrot) [x01] (Build_BTree (no_calls, tt) [{| bn_position := 2; bn_hash := zero32 |}] 0) in
   r = Val (Ok tt) /\ fst (bt_storage t) = {| gets := 0; inserts := 2; removes := 0 |}).
Proof. exact C113_binary_witness. Qed.

(** Push and root write only. *)
Theorem C113_sum : forall H pr St E (st : StorageT St bytes32 MNode E) t,
  (forall fee d t' o, mt_push H pr (Counted st) fee d t = (t', o) ->
     at_most 0 (1 + length (mt_head t)) 0 (fst (mt_storage t)) (fst (mt_storage t'))) /\
  (forall t' o, mt_root H pr (Counted st) t = (t', o) ->
     at_most 0 (length (mt_head t) - 1) 0 (fst (mt_storage t)) (fst (mt_storage t'))).
Proof. exact @C113_sum_lemma. Qed.
Print Assumptions C113_sum.

Example C113_sum_example :
  let t := Build_MTree (no_calls, tt) [odd_node; odd_node; odd_node] in
  match mt_root sha256 Debug (Counted MParrot) t with
  | (t', Val (Ok _)) => fst (mt_storage t') = {| gets := 0; inserts := 2; removes := 0 |} | _ => False end.
Proof. exact C113_sum_witness. Qed.
