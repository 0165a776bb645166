(** PropertiesSumDisk.v -- property theorems about the exact storage content of a Merkle sum tree. *)
From Verif Require Import Base Sha256 Storage ModelCommon ModelSum SpecBinary SpecSum SpecSumDisk RunsSum
  SumMain SumDisk WitnessSum WitnessSumDisk.

(** Pushes and root requests up to the first error: a beginning of the list of writes has been
    carried out, all of it if every call answers Ok.  [fields] lists the fields of a node. *)
Theorem C91_sum_storage_exact : forall H pr St E (st : StorageT St bytes32 MNode E) view,
  Lawful st view -> H [] = empty_sum ->
  forall os s0, fees_fit pr (pushed os) -> Z.of_nat (length (pushed os)) <= 2 ^ 64 ->
  exists t r n, mt_run H pr st os (mt_new s0) = (t, Val r) /\
    (forall k, option_map fields (view (mt_storage t) k) =
       written H wrapped_fee (firstn n (writes [] os)) (fun k => option_map fields (view s0 k)) k) /\
    ((r = Ok (sum_answers H wrapped_fee [] os) /\ n = length (writes [] os)) \/ ((exists e, r = Err e) /\ ~ Infallible st)).
Proof. exact @C91_lemma. Qed.
Print Assumptions C91_sum_storage_exact.

Example C91_example : fees_fit Debug (pushed sum_calls) /\ writes [] sum_calls = [[la]; [lb]; [la; lb]; [lc]; [la; lb; lc]] /\
  match mt_run sha256 Debug MStorageMap sum_calls (mt_new smap_new) with
  | (t, Val (Ok [(3, _); (6, _)])) => sum_disk_ok 5 t &&
      sum_entry_eqb (option_map fields (mview (mt_storage t) (hm [la; lb; lc])))
        (Some (2, hm [la; lb; lc], 6, Some (hm [la; lb]), Some (hm [lc])))
  | _ => false end = true.
Proof. exact C91_witness. Qed.

Example C91_failing_example :
  match mt_run sha256 Debug FaultyMMap sum_calls (mt_new ([NoFault; NoFault; FaultLost], smap_new)) with
  | (t, Val (Err None)) => sum_disk_ok 3 (Build_MTree (snd (mt_storage t)) (mt_head t))
  | _ => false end = true /\
  match mt_run sha256 Debug FaultyMMap sum_calls (mt_new ([NoFault; NoFault; Fault], smap_new)) with
  | (t, Val (Err None)) => sum_disk_ok 2 (Build_MTree (snd (mt_storage t)) (mt_head t))
  | _ => false end = true.
Proof. exact C91_failing_witness. Qed.

(** Starting from an empty storage, without collisions: exactly the nodes written are there. *)
Theorem C91_sum_content : forall H pr St E (st : StorageT St bytes32 MNode E) view,
  Lawful st view -> H [] = empty_sum ->
  forall os s0, (forall k, view s0 k = None) ->
  fees_fit pr (pushed os) -> Z.of_nat (length (pushed os)) <= 2 ^ 64 ->
  ~ has_collision H (prefix_inputs H wrapped_fee (pushed os)) ->
  forall t rs, mt_run H pr st os (mt_new s0) = (t, Val (Ok rs)) ->
  forall k e, option_map fields (view (mt_storage t) k) = Some e <->
    exists ls, In ls (writes [] os) /\ k = mst H wrapped_fee ls /\ e = entry_of H wrapped_fee ls.
Proof. exact @C91_content_lemma. Qed.
Print Assumptions C91_sum_content.

(** These are the complete aligned blocks and the nodes of the trees whose root was asked for. *)
Theorem C91_sum_written : forall os ls, In ls (writes [] os) <->
  (exists h b, ((b + 1) * 2 ^ h <= length (pushed os))%nat /\ ls = block h b (pushed os)) \/
  (exists os1 os2, os = os1 ++ Root :: os2 /\ pushed os1 <> [] /\ subtree (pushed os1) ls).
Proof. exact C91_written_lemma. Qed.
Print Assumptions C91_sum_written.

(** With one root request at the end these are the nodes of the tree. *)
Theorem C91_sum_tree : forall ds ls, ds <> [] ->
  In ls (writes [] (map Push ds ++ [Root])) <-> subtree ds ls.
Proof. exact C91_tree_lemma. Qed.
Print Assumptions C91_sum_tree.

Example C91_tree_example : subtree [la; lb; lc] [la; lb] /\ subtree [la; lb; lc] [lc] /\ ~ subtree [la; lb; lc] [lb; lc] /\
  ~ has_collision sha256 (prefix_inputs sha256 wrapped_fee (pushed sum_calls)).
Proof. exact C91_tree_witness. Qed.
