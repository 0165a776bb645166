(** PropertiesSumAny.v -- C79: the sum tree on a storage that fails at will.  [mt_run_all] carries on
    after errors and returns all answers. *)
From Verif Require Import Base Sha256 Storage ModelCommon ModelSum SpecBinary SpecSum SpecSumAny RunsSum RunsCalls
  SumAny WitnessSum WitnessSumAny.

(** For any storage whatever, even one that forgets or invents data: the answers are those of
    [sum_history]. *)
Theorem C79_history : forall H pr St E (st : StorageT St bytes32 MNode E), H [] = empty_sum ->
  forall os s0, fees_fit pr (pushed os) -> Z.of_nat (length (pushed os)) <= 2 ^ 64 ->
  exists t rs ds, mt_run_all H pr st os (mt_new s0) = (t, Val rs) /\ sum_history H [] os rs ds.
Proof. exact @C79_history_lemma. Qed.
Print Assumptions C79_history.

Example C79_history_example : fees_fit Debug (pushed lost_ops) /\
  match lost_run with
  | (t, Val [Ok None; Err None; Ok (Some (f, r)); Ok None; Err None; Ok (Some (g, q))]) =>
      (f =? 0) && b32_eqb r (mst sha256 wrapped_fee []) && (g =? 7) && b32_eqb q (mst sha256 wrapped_fee [lc])
  | _ => false
  end = true.
Proof. exact C79_history_witness. Qed.

(** Every stored entry is the tree node of some of the pushed leaves, under its own hash, and
    something is stored under the hashes of its two halves. *)
Theorem C79_storage : forall H, H [] = empty_sum ->
  forall pr St E (st : StorageT St bytes32 MNode E) view, Lawful st view ->
  forall os s0 t o, (forall k, view s0 k = None) ->
  fees_fit pr (pushed os) -> Z.of_nat (length (pushed os)) <= 2 ^ 64 ->
  mt_run_all H pr st os (mt_new s0) = (t, o) ->
  forall k v, view (mt_storage t) k = Some v ->
  exists ls, In ls (sublists (pushed os)) /\ ls <> [] /\ k = mst H wrapped_fee ls /\
    (mn_height v, mn_hash v, mn_fee v, mn_left_child_key v, mn_right_child_key v) = sum_entry H ls /\
    ((2 <= length ls)%nat -> let n := split_point (length ls) in
       view (mt_storage t) (mst H wrapped_fee (firstn n ls)) <> None /\
       view (mt_storage t) (mst H wrapped_fee (skipn n ls)) <> None).
Proof. exact @C79_storage_lemma. Qed.
Print Assumptions C79_storage.

(** Without collisions the two halves are stored as they should be, and so, by repeating this, is the
    whole tree below a stored node. *)
Theorem C79_subtrees : forall H, H [] = empty_sum ->
  forall pr St E (st : StorageT St bytes32 MNode E) view, Lawful st view ->
  forall os s0 t o, (forall k, view s0 k = None) ->
  fees_fit pr (pushed os) -> Z.of_nat (length (pushed os)) <= 2 ^ 64 ->
  ~ has_collision H (sublist_inputs H (pushed os)) ->
  mt_run_all H pr st os (mt_new s0) = (t, o) ->
  forall ls v, In ls (sublists (pushed os)) -> ls <> [] -> view (mt_storage t) (mst H wrapped_fee ls) = Some v ->
  (mn_height v, mn_hash v, mn_fee v, mn_left_child_key v, mn_right_child_key v) = sum_entry H ls /\
  ((2 <= length ls)%nat -> let n := split_point (length ls) in
     exists a b,
       view (mt_storage t) (mst H wrapped_fee (firstn n ls)) = Some a /\
       (mn_height a, mn_hash a, mn_fee a, mn_left_child_key a, mn_right_child_key a) = sum_entry H (firstn n ls) /\
       view (mt_storage t) (mst H wrapped_fee (skipn n ls)) = Some b /\
       (mn_height b, mn_hash b, mn_fee b, mn_left_child_key b, mn_right_child_key b) = sum_entry H (skipn n ls)).
Proof. exact @C79_subtrees_lemma. Qed.
Print Assumptions C79_subtrees.

(** The root answered for a non-empty tree is stored. *)
Theorem C79_root_stored : forall H, H [] = empty_sum ->
  forall pr St E (st : StorageT St bytes32 MNode E) view, Lawful st view ->
  forall os s0 t o f r t', (forall k, view s0 k = None) ->
  fees_fit pr (pushed os) -> Z.of_nat (length (pushed os)) <= 2 ^ 64 ->
  mt_run_all H pr st os (mt_new s0) = (t, o) ->
  mt_root H pr st t = (t', Val (Ok (f, r))) ->
  exists ds, In ds (sublists (pushed os)) /\ f = wrapped_fee ds /\ r = mst H wrapped_fee ds /\
    (ds <> [] -> view (mt_storage t') r <> None).
Proof. exact @C79_root_lemma. Qed.
Print Assumptions C79_root_stored.

Example C79_storage_example : Lawful FaultyMMap fmview /\ (forall k, fmview (lost_script, smap_new) k = None) /\
  ~ has_collision sha256 (sublist_inputs sha256 (pushed lost3)) /\
  In [la; lb] (sublists (pushed lost3)) /\
  fees_fit Debug (pushed lost3) /\
  match mt_run_all sha256 Debug FaultyMMap lost3 (mt_new (lost_script, smap_new)) with
  | (t, Val [Ok None; Err None; Ok None]) =>
      match fmview (mt_storage t) (mst sha256 wrapped_fee [la; lb]), fmview (mt_storage t) (mst sha256 wrapped_fee [la]),
            fmview (mt_storage t) (mst sha256 wrapped_fee [lc]) with
      | Some v, Some w, Some u => (mn_height v =? 1) && (mn_fee v =? 11) && (mn_height w =? 0) && (mn_fee w =? 5) && (mn_fee u =? 7)
      | _, _, _ => false
      end
  | _ => false
  end = true.
Proof. exact C79_storage_witness. Qed.
