(** PropertiesSumShare.v -- property theorems about several sum trees at work on one storage.
    [sum_crowd] carries out calls on objects given by numbers, and carries on after errors. *)
From Verif Require Import Base Sha256 Storage ModelCommon ModelSum SpecBinary SpecSum SpecSumAny SpecSumShare RunsSum RunsCalls RunsSumShare
  SumShare WitnessSum WitnessSumAny WitnessSumShare.

(** On any storage whatever, each object answers as if it were alone. *)
Theorem C107_answers : forall H pr St E (st : StorageT St bytes32 MNode E), H [] = empty_sum ->
  forall os s0, (forall i, fees_fit pr (pushed (calls_on i os))) -> (forall i, Z.of_nat (length (pushed (calls_on i os))) <= 2 ^ 64) ->
  exists s' rs, sum_crowd H pr st fresh_objects os s0 = (s', Val rs) /\ length rs = length os /\
    forall i, exists ds, sum_history H [] (calls_on i os) (answers_on i os rs) ds.
Proof. exact @C107_answers_lemma. Qed.
Print Assumptions C107_answers.

(** Every stored entry is the tree node of some leaves of one object, under its own hash, with both
    halves stored; and every root ever answered, of a tree that is not empty, is stored. *)
Theorem C107_storage : forall H, H [] = empty_sum ->
  forall pr St E (st : StorageT St bytes32 MNode E) view, Lawful st view ->
  forall os s0 s' rs, (forall k, view s0 k = None) ->
  (forall i, fees_fit pr (pushed (calls_on i os))) -> (forall i, Z.of_nat (length (pushed (calls_on i os))) <= 2 ^ 64) ->
  sum_crowd H pr st fresh_objects os s0 = (s', Val rs) ->
  (forall k v, view s' k = Some v -> exists i ls, In ls (sublists (pushed (calls_on i os))) /\ ls <> [] /\ k = mst H wrapped_fee ls /\
     (mn_height v, mn_hash v, mn_fee v, mn_left_child_key v, mn_right_child_key v) = sum_entry H ls /\
     ((2 <= length ls)%nat -> let n := split_point (length ls) in
        view s' (mst H wrapped_fee (firstn n ls)) <> None /\ view s' (mst H wrapped_fee (skipn n ls)) <> None)) /\
  (forall i f r, In (Ok (Some (f, r))) (answers_on i os rs) ->
     exists ds, In ds (sublists (pushed (calls_on i os))) /\ f = wrapped_fee ds /\ r = mst H wrapped_fee ds /\
       (ds <> [] -> view s' r <> None)).
Proof. exact @C107_storage_lemma. Qed.
Print Assumptions C107_storage.

(** Without collisions no object disturbs the nodes of another: below every stored node all is as
    it should be. *)
Theorem C107_subtrees : forall H, H [] = empty_sum ->
  forall pr St E (st : StorageT St bytes32 MNode E) view, Lawful st view ->
  forall os s0 s' rs, (forall k, view s0 k = None) ->
  (forall i, fees_fit pr (pushed (calls_on i os))) -> (forall i, Z.of_nat (length (pushed (calls_on i os))) <= 2 ^ 64) ->
  ~ has_collision H (object_inputs H os) -> sum_crowd H pr st fresh_objects os s0 = (s', Val rs) ->
  forall i ls v, In ls (sublists (pushed (calls_on i os))) -> ls <> [] -> view s' (mst H wrapped_fee ls) = Some v ->
  (mn_height v, mn_hash v, mn_fee v, mn_left_child_key v, mn_right_child_key v) = sum_entry H ls /\
  ((2 <= length ls)%nat -> let n := split_point (length ls) in
     exists a b,
       view s' (mst H wrapped_fee (firstn n ls)) = Some a /\
       (mn_height a, mn_hash a, mn_fee a, mn_left_child_key a, mn_right_child_key a) = sum_entry H (firstn n ls) /\
       view s' (mst H wrapped_fee (skipn n ls)) = Some b /\
       (mn_height b, mn_hash b, mn_fee b, mn_left_child_key b, mn_right_child_key b) = sum_entry H (skipn n ls)).
Proof. exact @C107_subtrees_lemma. Qed.
Print Assumptions C107_subtrees.

(** Two objects in turns; the second one is lost by a failure, the first one is not disturbed. *)
Example C107_example : Lawful FaultyMMap fmview /\ (forall k, fmview (two_sums_script, smap_new) k = None) /\
  (forall i, fees_fit Debug (pushed (calls_on i two_sums))) /\ (forall i, Z.of_nat (length (pushed (calls_on i two_sums))) <= 2 ^ 64) /\
  ~ has_collision sha256 (object_inputs sha256 two_sums) /\
  match two_sums_run with
  | (s, Val [Ok None; Ok None; Ok None; Err None; Ok (Some (f, r)); Ok (Some (g, q))]) =>
      match fmview s r, fmview s (mst sha256 wrapped_fee [lc; la]) with
      | Some v, Some w => (f =? 11) && b32_eqb r (mst sha256 wrapped_fee [la; lb]) && (g =? 0) && b32_eqb q empty_sum &&
                          (mn_fee v =? 11) && (mn_fee w =? 12)
      | _, _ => false
      end
  | _ => false
  end = true.
Proof. exact C107_witness. Qed.
