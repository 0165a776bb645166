(** WitnessShare.v -- concrete cases for the theorems of PropertiesShare.v. *)
From Verif Require Import Base Sha256 Storage ModelCommon ModelBinary ModelVerify SpecBinary
  Runs RunsShare WitnessBinary.

Lemma pair_eq : forall A B (x : A * B) b, snd x = b -> x = (fst x, b).
Proof. intros A B [a b'] b <-. reflexivity. Qed.

(** Three leaves.  The first object pushes two of them; the second starts again, pushes one and
    fails half way with the next; a third is loaded with two leaves and pushes the last. *)
Definition log3 : list (list byte) := [[x61]; [x62]; [x63]].
Definition h0 : faulty_state (S := Scratch) := (ok 5 ++ [Fault], smap_new).
Definition fresh : BTree unit := bare (bt_new h0).
Definition pushing (d : list byte) (o : BTree unit) (s : faulty_state) := bt_push sha256 Debug FaultyMap d (put_on s o).
Definition a1 := fst (pushing [x61] fresh h0).
Definition a2 := fst (pushing [x62] (bare a1) (bt_storage a1)).
Definition b1 := fst (pushing [x61] fresh (bt_storage a2)).
Definition b2 := fst (pushing [x62] (bare b1) (bt_storage b1)).
Definition cl := bt_load Debug FaultyMap 2 (bt_storage b2).
Definition c2 : BTree faulty_state := match snd cl with Val (Ok t) => t | _ => bt_new h0 end.
Definition c3 := fst (pushing [x63] (bare c2) (fst cl)).
Definition crew : list (nat * BTree unit) :=
  [(3%nat, bare c3); (2%nat, bare c2); (1%nat, bare b1); (0%nat, fresh); (2%nat, bare a2); (1%nat, bare a1); (0%nat, fresh)].

Lemma crew_shared : shared sha256 Debug FaultyMap log3 3 crew (bt_storage c3).
Proof.
  assert (A0 : shared sha256 Debug FaultyMap log3 0 [(0%nat, fresh)] h0) by (apply sh_new, sh_start).
  assert (A1 : shared sha256 Debug FaultyMap log3 1 [(1%nat, bare a1); (0%nat, fresh)] (bt_storage a1)).
  { refine (sh_push _ _ _ _ 0 _ _ 0 fresh [x61] a1 A0 _ _ _ _); [left; reflexivity|reflexivity|reflexivity|].
    apply pair_eq. vm_compute. reflexivity. }
  assert (A2 : shared sha256 Debug FaultyMap log3 2 [(2%nat, bare a2); (1%nat, bare a1); (0%nat, fresh)] (bt_storage a2)).
  { refine (sh_push _ _ _ _ 1 _ _ 1 (bare a1) [x62] a2 A1 _ _ _ _); [left; reflexivity|reflexivity|reflexivity|].
    apply pair_eq. vm_compute. reflexivity. }
  assert (B0 := sh_new _ _ _ _ _ _ _ A2).
  assert (B1 : shared sha256 Debug FaultyMap log3 2 [(1%nat, bare b1); (0%nat, fresh); (2%nat, bare a2); (1%nat, bare a1); (0%nat, fresh)] (bt_storage b1)).
  { refine (sh_push _ _ _ _ 2 _ _ 0 fresh [x61] b1 B0 _ _ _ _); [left; reflexivity|reflexivity|reflexivity|].
    apply pair_eq. vm_compute. reflexivity. }
  assert (B2 : shared sha256 Debug FaultyMap log3 2 [(1%nat, bare b1); (0%nat, fresh); (2%nat, bare a2); (1%nat, bare a1); (0%nat, fresh)] (bt_storage b2)).
  { refine (sh_push_fail _ _ _ _ 2 _ _ 1 (bare b1) [x62] b2 (BStorageError None) B1 _ _ _); [left; reflexivity|reflexivity|].
    apply pair_eq. vm_compute. reflexivity. }
  assert (C2 : shared sha256 Debug FaultyMap log3 2 [(2%nat, bare c2); (1%nat, bare b1); (0%nat, fresh); (2%nat, bare a2); (1%nat, bare a1); (0%nat, fresh)] (fst cl)).
  { refine (sh_load _ _ _ _ 2 _ _ 2 (fst cl) c2 B2 _ _); [reflexivity|]. apply pair_eq. vm_compute. reflexivity. }
  refine (sh_push _ _ _ _ 2 _ _ 2 (bare c2) [x63] c3 C2 _ _ _ _); [left; reflexivity|reflexivity|reflexivity|].
  apply pair_eq. vm_compute. reflexivity.
Qed.

Lemma C105_witness : sha256 [] = empty_sum /\ Lawful FaultyMap faulty_view /\
  exists os s, shared sha256 Debug FaultyMap log3 3 os s /\ map fst os = [3; 2; 1; 0; 2; 1; 0]%nat.
Proof.
  split; [exact sha256_empty|]. split; [exact FaultyMap_lawful|].
  exists crew, (bt_storage c3). split; [exact crew_shared|reflexivity].
Qed.

(** Two objects with the leaf a; one pushes b, then the other pushes c. *)
Definition w1 := fst (bt_push sha256 Debug BStorageMap [x61] (bt_new smap_new)).
Definition w2 := fst (bt_push sha256 Debug BStorageMap [x62] w1).
Definition w3 := fst (bt_push sha256 Debug BStorageMap [x63] (put_on (bt_storage w2) (bare w1))).
Definition wp := bt_prove sha256 Debug BStorageMap 1 (put_on (bt_storage w3) (bare w2)).

Lemma C105_diverging_lemma : exists t1 t2 t3 t4 ps,
  bt_push sha256 Debug BStorageMap [x61] (bt_new smap_new) = (t1, Val (Ok tt)) /\
  bt_push sha256 Debug BStorageMap [x62] t1 = (t2, Val (Ok tt)) /\
  bt_push sha256 Debug BStorageMap [x63] (put_on (bt_storage t2) (bare t1)) = (t3, Val (Ok tt)) /\
  bt_prove sha256 Debug BStorageMap 1 (put_on (bt_storage t3) (bare t2)) = (t4, Val (Ok (mth sha256 [[x61]; [x62]], ps))) /\
  verify sha256 Debug (mth sha256 [[x61]; [x62]]) ps 1 2 = Val false.
Proof.
  exists w1, w2, w3, (fst wp), [hash_leaf sha256 [x63]; hash_leaf sha256 [x61]].
  split; [apply pair_eq; vm_compute; reflexivity|]. split; [apply pair_eq; vm_compute; reflexivity|].
  split; [apply pair_eq; vm_compute; reflexivity|]. split; [|vm_compute; reflexivity].
  apply pair_eq. change (bt_prove sha256 Debug BStorageMap 1 (put_on (bt_storage w3) (bare w2))) with wp.
  assert (A : match snd wp with Val (Ok (r, [x; y])) => b32_eqb r (mth sha256 [[x61]; [x62]]) && b32_eqb x (hash_leaf sha256 [x63]) && b32_eqb y (hash_leaf sha256 [x61]) | _ => false end = true)
    by (vm_compute; reflexivity).
  destruct (snd wp) as [[[r [|x [|y [|z l]]]]|e]| |]; try discriminate A.
  apply andb_prop in A. destruct A as [A A3]. apply andb_prop in A. destruct A as [A1 A2].
  apply b32_eqb_eq in A1, A2, A3. subst. reflexivity.
Qed.
