(** PropertiesRead.v -- property theorems about what proofs read and what pushes write. *)
From Verif Require Import Base Storage ModelCommon ModelBinary SpecBits SpecBinary SpecPosition SpecCalls SpecRead Runs ReadProofs WitnessBinary WitnessRead.

(** The storage of a tree built by pushes was replaced by any other one.  [proof_read] is the
    proof made of the hashes found there and of those computed from the pushed leaves, or the
    first entry that is missing. *)
Theorem C16_prove_on_any_storage : forall H pr St E (st : StorageT St Z BPrimitive E) view,
  Lawful st view ->
  forall ds s0 t s i, Z.of_nat (length ds) < leaf_limit pr ->
  bt_push_all H pr st ds (bt_new s0) = (t, Val (Ok tt)) -> (i < length ds)%nat ->
  exists t' r, bt_prove H pr st (Z.of_nat i) (Build_BTree s (bt_head t) (bt_leaves_count t)) = (t', Val r) /\
    (r = match proof_read H (view s) ds i with Ok hs => Ok (mth H ds, hs) | Err k => Err (BLoadError k) end \/
     (exists e, r = Err (BStorageError e) /\ ~ Infallible st)).
Proof. exact @prove_any. Qed.
Print Assumptions C16_prove_on_any_storage.

Example C16_any_example :
  (exists a b c, proof_read lengths (smap_lookup Z.eqb replaced) leaves7 3 = Ok [a; b; other; c] /\
     snd (bt_prove lengths Debug BStorageMap 3 (on replaced)) = Val (Ok (mth lengths leaves7, [a; b; other; c])) /\
     c = mth lengths (skipn 4 leaves7)) /\
  proof_read lengths (smap_lookup Z.eqb removed) leaves7 3 = Err 1 /\
  snd (bt_prove lengths Debug BStorageMap 3 (on removed)) = Val (Err (BLoadError 1)).
Proof. exact C16_any_witness. Qed.

(** Also when the push fails half way: its calls are writes of different keys, none of which
    held an entry before. *)
Theorem C13_fresh_writes : forall H pr St E (st : StorageT St Z BPrimitive E) view,
  Lawful st view ->
  forall ds s0 t d t' r, (forall k, view s0 k = None) ->
  Z.of_nat (length ds) < 2 ^ 63 ->
  bt_push_all H pr (Logged st) ds (bt_new ([], s0)) = (t, Val (Ok tt)) ->
  bt_push H pr (Logged st) d t = (t', Val r) ->
  exists l, fst (bt_storage t') = fst (bt_storage t) ++ l /\ NoDup (map (fun x => key_of (fst x)) l) /\
    forall c o, In (c, o) l -> exists k v, c = Put k v /\ view (snd (bt_storage t)) k = None.
Proof. exact @C13_fresh_lemma. Qed.
Print Assumptions C13_fresh_writes.

Example C13_fresh_example :
  match bt_push_all lengths Debug (Logged BStorageMap) leaves7 (bt_new ([], smap_new)) with
  | (t, Val (Ok tt)) =>
      let '(t', r) := bt_push lengths Debug (Logged BStorageMap) [x68] t in
      r = Val (Ok tt) /\ map (fun x => key_of (fst x)) (skipn 11 (fst (bt_storage t'))) = [14; 13; 11; 7] /\
      length (fst (bt_storage t)) = 11%nat
  | _ => False
  end.
Proof. exact C13_fresh_witness. Qed.
