(** PropertiesMessage.v -- C102: the messages of errors. *)
From Verif Require Import Base Sha256 Storage ModelText ModelCommon ModelBinary ModelDisplay SpecText SpecMessage SpecBinary Runs
  MessageProofs WitnessMessage WitnessMemory.
From Coq Require Import String List.

(** "The key is not found in storage" is not always true: a proof of a lost leaf names the index of
    the leaf as the key, and that key may well be in the storage. *)
Theorem C102_message_true_refuted :
  exists (t : BTree Scratch) i t' e k, bt_leaves_count t = 7 /\ 0 <= i < 7 /\
    bt_prove flat Debug BStorageMap i t = (t', Val (Err e)) /\ says_missing k (berror_display no_text e) /\
    smap_lookup Z.eqb (bt_storage t) k <> None.
Proof. exact C102_refuted_witness. Qed.
Print Assumptions C102_message_true_refuted.

(** Any tree value and any lawful storage, also a failing one.  Missing: the message of a proof
    whose leaf is lost, which names the index [i] instead of the key [2 * i]. *)
Theorem C102_message_true_partial : forall H pr St E (st : StorageT St Z BPrimitive E) view, Lawful st view -> forall (show : E -> list byte),
  (forall n s s' e, Z.of_nat n < leaf_limit pr -> bt_load pr st (Z.of_nat n) s = (s', Val (Err e)) ->
     (exists k, says_missing k (berror_display show e) /\ view s k = None) \/
     (exists x, e = BStorageError x /\ berror_display show e = show x)) /\
  (forall t i t' e n, bt_leaves_count t = Z.of_nat n -> Z.of_nat n < leaf_limit pr -> 0 <= i < 2 ^ 64 - 1 ->
     bt_prove H pr st i t = (t', Val (Err e)) ->
     Z.of_nat n <= i /\ says_bad_index i (berror_display show e) \/
     i < Z.of_nat n /\ view (bt_storage t) (2 * i) = None /\ says_missing i (berror_display show e) \/
     i < Z.of_nat n /\ ((exists k, says_missing k (berror_display show e) /\ view (bt_storage t) k = None) \/
                        (exists x, e = BStorageError x /\ berror_display show e = show x))).
Proof. exact @C102_lemma. Qed.
Print Assumptions C102_message_true_partial.

Example C102_example :
  snd (bt_prove flat Debug BStorageMap 3 without4) = Val (Err (BLoadError 4)) /\
  berror_display no_text (BLoadError 4) = text "cannot load node with key 4; the key is not found in storage" /\
  smap_lookup Z.eqb (bt_storage without4) 4 = None /\
  snd (bt_prove flat Debug BStorageMap 7 without4) = Val (Err (BInvalidProofIndex 7)) /\
  berror_display no_text (BInvalidProofIndex 7) = text "proof index 7 is not valid".
Proof. exact C102_witness. Qed.

(** An unknown prefix byte is rejected with a message that names it. *)
Theorem C102_prefix_message : forall b,
  (forall p, prefix_try_from b = Ok p -> (Z_of_byte b = 0 \/ Z_of_byte b = 1)) /\
  (forall e, prefix_try_from b = Err e -> says_bad_prefix (Z_of_byte b) (prefix_error_display e) /\ Z_of_byte b <> 0 /\ Z_of_byte b <> 1).
Proof. exact C102_prefix_lemma. Qed.
Print Assumptions C102_prefix_message.

Example C102_prefix_example :
  prefix_try_from xff = Err (InvalidPrefix xff) /\ prefix_error_display (InvalidPrefix xff) = text "prefix 255 is not valid".
Proof. exact C102_prefix_witness. Qed.

(** A message tells what happened and with which number. *)
Theorem C102_distinct_messages :
  (forall z z' m, says_missing z m -> says_missing z' m -> z = z') /\
  (forall z z' m, says_bad_index z m -> says_bad_index z' m -> z = z') /\
  (forall z z' m, says_bad_prefix z m -> says_bad_prefix z' m -> z = z') /\
  (forall z z' m, says_missing z m -> ~ says_bad_index z' m) /\
  (forall z z' m, says_missing z m -> ~ says_bad_prefix z' m) /\
  (forall z z' m, says_bad_index z m -> ~ says_bad_prefix z' m).
Proof. exact C102_distinct_lemma. Qed.
Print Assumptions C102_distinct_messages.

Example C102_distinct_example : says_missing 40 (text "cannot load node with key 40; the key is not found in storage").
Proof. exact C102_distinct_witness. Qed.
