(** PropertiesSum.v -- C50 to C55: the Merkle sum tree.  [H] is any hash function, [pr] the
    build profile, [st] any storage obeying the laws of Storage.v.  [mt_run] pushes leaves and
    asks for roots as a list of operations says, and returns the answers. *)
From Verif Require Import Base Sha256 Storage ModelCommon ModelSum SpecBinary SpecSum RunsSum
  SumMain WitnessSum.

Theorem C50_sum_root : forall H pr St E (st : StorageT St bytes32 MNode E) view,
  Lawful st view -> H [] = empty_sum ->
  forall ls s0, Infallible st -> fees_ok ls -> total_fee ls < 2 ^ 64 -> Z.of_nat (length ls) <= 2 ^ 64 ->
  exists t, mt_run H pr st (map Push ls ++ [Root]) (mt_new s0) =
              (t, Val (Ok [(total_fee ls, mst H total_fee ls)])).
Proof. exact @C50_lemma. Qed.
Print Assumptions C50_sum_root.

Example C50_example :
  Lawful MStorageMap mview /\ Infallible MStorageMap /\ sha256 [] = empty_sum /\
  fees_ok fees5 /\ total_fee fees5 = 2 ^ 40 + 15 /\
  match snd (mt_run sha256 Debug MStorageMap (map Push fees5 ++ [Root]) (mt_new smap_new)) with
  | Val (Ok [(f, r)]) => (f =? 2 ^ 40 + 15) && b32_eqb r (mst sha256 total_fee fees5)
  | _ => false
  end = true.
Proof. exact C50_witness. Qed.

(** C51 is false: the fee 2^64 of two leaves makes builds with overflow checks panic and the
    others answer 0. *)
Theorem C51_exact_fee_refuted : exists ls, fees_ok ls /\
  (forall pr, overflow_checks pr = true -> exists t, mt_run sha256 pr MStorageMap (map Push ls ++ [Root]) (mt_new smap_new) = (t, Panic)) /\
  (forall pr, overflow_checks pr = false -> exists t root, mt_run sha256 pr MStorageMap (map Push ls ++ [Root]) (mt_new smap_new) =
     (t, Val (Ok [(0, root)])) /\ total_fee ls <> 0).
Proof. exact C51_refuted_lemma. Qed.
Print Assumptions C51_exact_fee_refuted.

(** What holds, for any storage, even one that loses or changes data: builds with overflow checks
    never answer a wrong fee, the others answer it modulo 2^64. *)
Theorem C51_exact_fee_partial : forall H pr St E (st : StorageT St bytes32 MNode E) ls s0 t f root,
  fees_ok ls ->
  mt_run H pr st (map Push ls ++ [Root]) (mt_new s0) = (t, Val (Ok [(f, root)])) ->
  f = if overflow_checks pr then total_fee ls else total_fee ls mod 2 ^ 64.
Proof. exact @C51_partial_lemma. Qed.
Print Assumptions C51_exact_fee_partial.

Example C51_example : fees_ok fees_over /\
  match snd (mt_run sha256 Release MStorageMap (map Push fees_over ++ [Root]) (mt_new smap_new)) with
  | Val (Ok [(f, _)]) => f =? total_fee fees_over mod 2 ^ 64
  | _ => false
  end = true.
Proof. exact C51_witness. Qed.

(** [fees_fit]: release builds wrap around, debug builds need a total below 2^64. *)
Theorem C52_root_undisturbed : forall H pr St E (st : StorageT St bytes32 MNode E) view,
  Lawful st view -> H [] = empty_sum ->
  forall os ps s0, Infallible st -> fees_fit pr (pushed os) -> Z.of_nat (length (pushed os)) <= 2 ^ 64 ->
  ps = map Push (pushed os) ->
  exists t t' answers r,
    mt_run H pr st (os ++ [Root]) (mt_new s0) = (t, Val (Ok (answers ++ [r]))) /\
    mt_run H pr st (ps ++ [Root]) (mt_new s0) = (t', Val (Ok [r])).
Proof. exact @C52_undisturbed. Qed.
Print Assumptions C52_root_undisturbed.

(** Moreover every root request answers the root of the leaves pushed before it. *)
Theorem C52_all_answers : forall H pr St E (st : StorageT St bytes32 MNode E) view,
  Lawful st view -> H [] = empty_sum ->
  forall os s0, Infallible st -> fees_fit pr (pushed os) -> Z.of_nat (length (pushed os)) <= 2 ^ 64 ->
  exists t, mt_run H pr st os (mt_new s0) = (t, Val (Ok (sum_answers H wrapped_fee [] os))).
Proof. exact @C52_lemma. Qed.
Print Assumptions C52_all_answers.

Example C52_example : pushed ops5 = fees5 /\ fees_fit Debug (pushed ops5) /\
  match snd (mt_run sha256 Debug MStorageMap (ops5 ++ [Root]) (mt_new smap_new)),
        snd (mt_run sha256 Debug MStorageMap (map Push fees5 ++ [Root]) (mt_new smap_new)) with
  | Val (Ok [_; _; _; _; (f, r)]), Val (Ok [(f', r')]) => (f =? f') && b32_eqb r r'
  | _, _ => false
  end = true.
Proof. exact C52_witness. Qed.

Theorem C53_sum_binding : forall H pr St E (st : StorageT St bytes32 MNode E) view,
  Lawful st view -> H [] = empty_sum ->
  forall ls ls' s0 s0', Infallible st ->
  fees_fit pr ls -> fees_fit pr ls' -> Z.of_nat (length ls) <= 2 ^ 64 -> Z.of_nat (length ls') <= 2 ^ 64 ->
  exists t t' f f' root root',
    mt_run H pr st (map Push ls ++ [Root]) (mt_new s0) = (t, Val (Ok [(f, root)])) /\
    mt_run H pr st (map Push ls' ++ [Root]) (mt_new s0') = (t', Val (Ok [(f', root')])) /\
    (root = root' -> ls = ls' \/ has_collision H (mst_inputs H wrapped_fee ls ++ mst_inputs H wrapped_fee ls')).
Proof. exact @C53_lemma. Qed.
Print Assumptions C53_sum_binding.

(** Moving fee from one leaf to another changes the root. *)
Example C53_example : fees_fit Debug fees_a /\ fees_fit Debug fees_b /\ total_fee fees_a = total_fee fees_b /\
  b32_eqb (mst sha256 wrapped_fee fees_a) (mst sha256 wrapped_fee fees_b) = false.
Proof. exact C53_witness. Qed.

(** C54 is false: a write fails while two subtrees are joined, and the tree is empty. *)
Theorem C54_failed_push_refuted : forall pr, exists t t' root,
  mt_run sha256 pr FaultyMMap [Push (5, [x61])] (mt_new ([NoFault; NoFault; Fault], smap_new)) = (t, Val (Ok [])) /\
  snd (mt_root sha256 pr FaultyMMap t) = Val (Ok (5, root)) /\
  mt_push sha256 pr FaultyMMap 6 [x62] t = (t', Val (Err None)) /\
  snd (mt_root sha256 pr FaultyMMap t') = Val (Ok (0, empty_sum)).
Proof. exact C54_refuted_lemma. Qed.
Print Assumptions C54_failed_push_refuted.

(** What holds: the root is the old one or, only for an odd number of leaves, that of the empty
    tree (unless the storage fails again). *)
Theorem C54_failed_push_partial : forall H pr St E (st : StorageT St bytes32 MNode E) view,
  Lawful st view -> H [] = empty_sum ->
  forall os s0 t rs x t' e,
  fees_fit pr (pushed os ++ [x]) -> Z.of_nat (length (pushed os ++ [x])) <= 2 ^ 64 ->
  mt_run H pr st os (mt_new s0) = (t, Val (Ok rs)) ->
  mt_push H pr st (fst x) (snd x) t = (t', Val (Err e)) ->
  exists t2 r, mt_root H pr st t' = (t2, Val r) /\
    (r = Ok (wrapped_fee (pushed os), mst H wrapped_fee (pushed os)) \/
     (Nat.Odd (length (pushed os)) /\ r = Ok (0, mst H wrapped_fee [])) \/
     (exists e', r = Err e') /\ ~ Infallible st).
Proof. exact @C54_partial_lemma. Qed.
Print Assumptions C54_failed_push_partial.

Example C54_example :
  match mt_run sha256 Debug FaultyMMap [Push (5, [x61]); Push (6, [x62])]
          (mt_new ([NoFault; NoFault; NoFault; Fault], smap_new)) with
  | (t, Val (Ok [])) =>
      match mt_push sha256 Debug FaultyMMap 7 [x63] t with
      | (t', Val (Err None)) =>
          match snd (mt_root sha256 Debug FaultyMMap t') with
          | Val (Ok (f, r)) => (f =? 11) && b32_eqb r (mst sha256 wrapped_fee [(5, [x61]); (6, [x62])])
          | _ => false
          end
      | _ => false
      end
  | _ => false
  end = true.
Proof. exact C54_witness. Qed.

Theorem C55_keyed_by_hash : forall H pr St E (st : StorageT St bytes32 MNode E) view,
  Lawful st view -> H [] = empty_sum ->
  forall os s0, (forall k, view s0 k = None) -> fees_fit pr (pushed os) ->
  Z.of_nat (length (pushed os)) <= 2 ^ 64 ->
  forall t r, mt_run H pr st os (mt_new s0) = (t, Val r) ->
  forall k v, view (mt_storage t) k = Some v -> mn_hash v = k.
Proof. exact @C55_keyed. Qed.
Print Assumptions C55_keyed_by_hash.

(** [block h b ls] are the 2^h leaves from number b * 2^h on. *)
Theorem C55_nodes_present : forall H pr St E (st : StorageT St bytes32 MNode E) view,
  Lawful st view -> H [] = empty_sum ->
  forall os s0, fees_fit pr (pushed os) -> Z.of_nat (length (pushed os)) <= 2 ^ 64 ->
  ~ has_collision H (prefix_inputs H wrapped_fee (pushed os)) ->
  forall t rs, mt_run H pr st os (mt_new s0) = (t, Val (Ok rs)) ->
  forall h b, ((b + 1) * 2 ^ h <= length (pushed os))%nat ->
  let ls := block h b (pushed os) in
  view (mt_storage t) (mst H wrapped_fee ls) = Some
    {| mn_height := Z.of_nat h; mn_hash := mst H wrapped_fee ls; mn_fee := wrapped_fee ls;
       mn_left_child_key := match h with O => None | S h' => Some (mst H wrapped_fee (block h' (2 * b) (pushed os))) end;
       mn_right_child_key := match h with O => None | S h' => Some (mst H wrapped_fee (block h' (2 * b + 1) (pushed os))) end |}.
Proof. exact @C55_present. Qed.
Print Assumptions C55_nodes_present.

Example C55_example :
  pushed [Push (1, [x61]); Root; Push (2, [x62]); Push (3, [x63])] = fees_a /\
  ~ has_collision sha256 (prefix_inputs sha256 wrapped_fee fees_a) /\
  length (mt_storage (fst (mt_run sha256 Debug MStorageMap (map Push fees_a ++ [Root]) (mt_new smap_new)))) = 5%nat.
Proof. exact C55_witness. Qed.
