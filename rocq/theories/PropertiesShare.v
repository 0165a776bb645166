(** PropertiesShare.v -- property theorems about binary tree objects that work on one storage. *)
From Verif Require Import Base Sha256 Storage ModelCommon ModelBinary ModelVerify SpecBinary Runs RunsShare ShareProofs
  WitnessBinary WitnessShare.

(** Any number of objects push the leaves of one log, each at its own pace, starting anew or from
    any number of leaves reached; calls may fail at any time.  Each object answers as if it were
    alone, and every number of leaves reached can be loaded. *)
Theorem C105_one_log : forall H pr St E (st : StorageT St Z BPrimitive E) view, Lawful st view ->
  forall log top os s, H [] = empty_sum -> shared H pr st log top os s ->
  (forall n o, In (n, o) os -> (n <= top)%nat /\ bt_leaves_count o = Z.of_nat n /\
     bt_root H pr o = Val (mth H (firstn n log)) /\ behaves_as H pr st (firstn n log) (put_on s o)) /\
  (forall m, (m <= top)%nat -> exists s' r, bt_load pr st (Z.of_nat m) s = (s', Val r) /\
     ok_or_fault st r (fun t => bt_root H pr t = Val (mth H (firstn m log)) /\ behaves_as H pr st (firstn m log) t)).
Proof. exact @C105_lemma. Qed.
Print Assumptions C105_one_log.

Example C105_example : sha256 [] = empty_sum /\ Lawful FaultyMap faulty_view /\
  exists os s, shared sha256 Debug FaultyMap log3 3 os s /\ map fst os = [3; 2; 1; 0; 2; 1; 0]%nat.
Proof. exact C105_witness. Qed.

(** The log must be one: if two objects with the leaf a push b and c, the first one answers a proof
    that does not verify. *)
Theorem C105_two_logs : exists t1 t2 t3 t4 ps,
  bt_push sha256 Debug BStorageMap [x61] (bt_new smap_new) = (t1, Val (Ok tt)) /\
  bt_push sha256 Debug BStorageMap [x62] t1 = (t2, Val (Ok tt)) /\
  bt_push sha256 Debug BStorageMap [x63] (put_on (bt_storage t2) (bare t1)) = (t3, Val (Ok tt)) /\
  bt_prove sha256 Debug BStorageMap 1 (put_on (bt_storage t3) (bare t2)) = (t4, Val (Ok (mth sha256 [[x61]; [x62]], ps))) /\
  verify sha256 Debug (mth sha256 [[x61]; [x62]]) ps 1 2 = Val false.
Proof. exact C105_diverging_lemma. Qed.
Print Assumptions C105_two_logs.
