(** WitnessMessage.v -- concrete cases for C102. *)
From Verif Require Import Base Sha256 Storage ModelText ModelCommon ModelBinary ModelDebug ModelDisplay SpecText SpecMessage SpecBinary Runs
  MessageProofs WitnessBinary WitnessMemory RunsCalls.
From Coq Require Import String List.
Open Scope list_scope.

Definition no_text (e : Empty_set) : list byte := match e with end.

(** Seven leaves; leaf 2, under key 4, is lost. *)
Definition seven : BTree Scratch := fst (bt_calls flat Debug BStorageMap seven_calls (bt_new smap_new)).
Definition without4 : BTree Scratch := Build_BTree (fst (smap_remove Z.eqb 4 (bt_storage seven))) (bt_head seven) 7.

Lemma C102_refuted_witness :
  exists (t : BTree Scratch) i t' e k, bt_leaves_count t = 7 /\ 0 <= i < 7 /\
    bt_prove flat Debug BStorageMap i t = (t', Val (Err e)) /\ says_missing k (berror_display no_text e) /\
    smap_lookup Z.eqb (bt_storage t) k <> None.
Proof.
  exists without4, 2. eexists. exists (BLoadError 2), 2.
  split; [reflexivity|]. split; [split; [discriminate|reflexivity]|]. split; [vm_compute; reflexivity|].
  split; [apply names_dec; discriminate|]. vm_compute. discriminate.
Qed.

Lemma C102_witness :
  snd (bt_prove flat Debug BStorageMap 3 without4) = Val (Err (BLoadError 4)) /\
  berror_display no_text (BLoadError 4) = text "cannot load node with key 4; the key is not found in storage" /\
  smap_lookup Z.eqb (bt_storage without4) 4 = None /\
  snd (bt_prove flat Debug BStorageMap 7 without4) = Val (Err (BInvalidProofIndex 7)) /\
  berror_display no_text (BInvalidProofIndex 7) = text "proof index 7 is not valid".
Proof. vm_compute. repeat split; reflexivity. Qed.

Lemma C102_prefix_witness :
  prefix_try_from xff = Err (InvalidPrefix xff) /\ prefix_error_display (InvalidPrefix xff) = text "prefix 255 is not valid".
Proof. split; vm_compute; reflexivity. Qed.

Lemma C102_distinct_witness : says_missing 40 (text "cannot load node with key 40; the key is not found in storage").
Proof. apply (names_dec "cannot load node with key " "; the key is not found in storage" 40). discriminate. Qed.
