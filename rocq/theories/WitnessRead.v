(** WitnessRead.v -- concrete cases for PropertiesRead.v. *)
From Verif Require Import Base Storage ModelCommon ModelBinary SpecBits SpecBinary SpecPosition SpecCalls SpecRead Runs WitnessBinary.

(** A hash that is quick to compute: the length of its input. *)
Definition lengths (l : list byte) : bytes32 := mk32 (repeat x00 31 ++ [byte_of_Z (Z.of_nat (length l) mod 256)]).
Definition built : BTree Scratch := fst (bt_push_all lengths Debug BStorageMap leaves7 (bt_new smap_new)).
(** The entry of leaves 0 and 1 was replaced by another hash. *)
Definition other : bytes32 := mk32 (repeat xff 32).
Definition replaced : Scratch := fst (smap_insert Z.eqb 1 (1, other) (bt_storage built)).
Definition removed : Scratch := fst (smap_remove Z.eqb 1 (bt_storage built)).
Definition on (s : Scratch) : BTree Scratch := Build_BTree s (bt_head built) (bt_leaves_count built).

Lemma C16_any_witness :
  (exists a b c, proof_read lengths (smap_lookup Z.eqb replaced) leaves7 3 = Ok [a; b; other; c] /\
     snd (bt_prove lengths Debug BStorageMap 3 (on replaced)) = Val (Ok (mth lengths leaves7, [a; b; other; c])) /\
     c = mth lengths (skipn 4 leaves7)) /\
  proof_read lengths (smap_lookup Z.eqb removed) leaves7 3 = Err 1 /\
  snd (bt_prove lengths Debug BStorageMap 3 (on removed)) = Val (Err (BLoadError 1)).
Proof. split; [eexists _, _, _; split; [vm_compute; reflexivity|split; vm_compute; reflexivity]|split; vm_compute; reflexivity]. Qed.

Lemma C13_fresh_witness :
  match bt_push_all lengths Debug (Logged BStorageMap) leaves7 (bt_new ([], smap_new)) with
  | (t, Val (Ok tt)) =>
      let '(t', r) := bt_push lengths Debug (Logged BStorageMap) [x68] t in
      r = Val (Ok tt) /\ map (fun x => key_of (fst x)) (skipn 11 (fst (bt_storage t'))) = [14; 13; 11; 7] /\
      length (fst (bt_storage t)) = 11%nat
  | _ => False
  end.
Proof. vm_compute. auto. Qed.
