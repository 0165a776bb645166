(** WitnessSum.v -- concrete runs of the sum tree, and counterexamples. *)
From Verif Require Import Base Sha256 Storage ModelCommon ModelSum SpecBinary SpecSum RunsSum
  StorageProofs BindingProofs SumMain WitnessBinary.

Definition MScratch : Type := @smap bytes32 MNode.
Definition MStorageMap : StorageT MScratch bytes32 MNode Empty_set := StorageMap b32_eqb.
Definition mview : MScratch -> bytes32 -> option MNode := smap_lookup b32_eqb.
Lemma MStorageMap_lawful : Lawful MStorageMap mview.
Proof. apply StorageMap_lawful. apply b32_eqb_eq. Qed.
Lemma MStorageMap_infallible : Infallible MStorageMap.
Proof. apply StorageMap_infallible. Qed.

Definition FaultyMMap : StorageT (faulty_state (S := MScratch)) bytes32 MNode (option Empty_set) :=
  Faulty MStorageMap.
Definition fmview (s : faulty_state (S := MScratch)) : bytes32 -> option MNode := mview (snd s).
Lemma FaultyMMap_lawful : Lawful FaultyMMap fmview.
Proof. exact (Faulty_lawful _ _ MStorageMap_lawful). Qed.

Fixpoint bytes_eqb (a b : list byte) : bool :=
  match a, b with
  | [], [] => true
  | x :: a', y :: b' => Byte.eqb x y && bytes_eqb a' b'
  | _, _ => false
  end.
Lemma bytes_eqb_eq : forall a b, bytes_eqb a b = true -> a = b.
Proof.
  induction a as [|x a IH]; intros [|y b] E; try discriminate E; auto. cbn in E.
  apply andb_prop in E. destruct E as [E1 E2]. apply Byte.byte_dec_bl in E1. f_equal; auto.
Qed.

(** A decision procedure for the absence of collisions. *)
Definition no_collisions (H : list byte -> bytes32) (l : list (list byte)) : bool :=
  let hs := map (fun x => (x, H x)) l in
  forallb (fun p => forallb (fun q =>
    if b32_eqb (snd p) (snd q) then bytes_eqb (fst p) (fst q) else true) hs) hs.
Lemma no_collisions_ok : forall H l, no_collisions H l = true -> ~ has_collision H l.
Proof.
  intros H l N (x & y & Ix & Iy & Nxy & E). unfold no_collisions in N.
  rewrite forallb_forall in N. specialize (N (x, H x)).
  rewrite forallb_forall in N. assert (Q : In (y, H y) (map (fun x => (x, H x)) l)).
  { apply in_map_iff. exists y. auto. }
  assert (Q' : In (x, H x) (map (fun x => (x, H x)) l)). { apply in_map_iff. exists x. auto. }
  specialize (N Q' _ Q). cbn [fst snd] in N.
  assert (B : b32_eqb (H x) (H y) = true) by (apply b32_eqb_eq; exact E).
  rewrite B in N. apply bytes_eqb_eq in N. contradiction.
Qed.

Definition fees5 : list leaf :=
  [(7, [x61]); (0, []); (2 ^ 40, [x62; x63]); (7, [x61]); (1, [xff])].

Lemma C50_witness :
  Lawful MStorageMap mview /\ Infallible MStorageMap /\ sha256 [] = empty_sum /\
  fees_ok fees5 /\ total_fee fees5 = 2 ^ 40 + 15 /\
  match snd (mt_run sha256 Debug MStorageMap (map Push fees5 ++ [Root]) (mt_new smap_new)) with
  | Val (Ok [(f, r)]) => (f =? 2 ^ 40 + 15) && b32_eqb r (mst sha256 total_fee fees5)
  | _ => false
  end = true.
Proof.
  split; [exact MStorageMap_lawful|]. split; [exact MStorageMap_infallible|].
  split; [exact sha256_empty|]. split; [repeat constructor; cbn; lia|]. split; [reflexivity|].
  vm_compute; reflexivity.
Qed.

(** Two fees whose sum does not fit: debug builds panic, release builds answer 0. *)
Definition fees_over : list leaf := [(2 ^ 64 - 1, [x61]); (1, [x62])].
Definition run_over (pr : profile) :=
  mt_run sha256 pr MStorageMap (map Push fees_over ++ [Root]) (mt_new smap_new).
Lemma C51_refuted_lemma : exists ls, fees_ok ls /\
  (forall pr, overflow_checks pr = true -> exists t, mt_run sha256 pr MStorageMap (map Push ls ++ [Root]) (mt_new smap_new) = (t, Panic)) /\
  (forall pr, overflow_checks pr = false -> exists t root, mt_run sha256 pr MStorageMap (map Push ls ++ [Root]) (mt_new smap_new) =
     (t, Val (Ok [(0, root)])) /\ total_fee ls <> 0).
Proof.
  exists fees_over. split; [repeat constructor; cbn; lia|]. split.
  - intros pr Hc. fold (run_over pr). destruct (run_over pr) as [t o] eqn:E.
    assert (F : match o with Panic => true | _ => false end = true).
    { replace o with (snd (run_over pr)) by (rewrite E; reflexivity). clear E.
      destruct pr as [[] [] []]; try discriminate Hc; vm_compute; reflexivity. }
    destruct o; try discriminate F. exists t. reflexivity.
  - intros pr Hc. fold (run_over pr). destruct (run_over pr) as [t o] eqn:E.
    assert (F : match o with Val (Ok [(0, _)]) => true | _ => false end = true).
    { replace o with (snd (run_over pr)) by (rewrite E; reflexivity). clear E.
      destruct pr as [[] [] []]; try discriminate Hc; vm_compute; reflexivity. }
    destruct o as [[[|[[| |] r] [|]]|]| |]; try discriminate F.
    exists t, r. split; [reflexivity|]. vm_compute; discriminate.
Qed.

Lemma C51_witness : fees_ok fees_over /\
  match snd (mt_run sha256 Release MStorageMap (map Push fees_over ++ [Root]) (mt_new smap_new)) with
  | Val (Ok [(f, _)]) => f =? total_fee fees_over mod 2 ^ 64
  | _ => false
  end = true.
Proof. split; [repeat constructor; cbn; lia|]. vm_compute; reflexivity. Qed.

Definition ops5 : list sum_op :=
  [Root; Push (7, [x61]); Push (0, []); Root; Root; Push (2 ^ 40, [x62; x63]); Root; Push (7, [x61]); Push (1, [xff])].
Lemma C52_witness : pushed ops5 = fees5 /\ fees_fit Debug (pushed ops5) /\
  match snd (mt_run sha256 Debug MStorageMap (ops5 ++ [Root]) (mt_new smap_new)),
        snd (mt_run sha256 Debug MStorageMap (map Push fees5 ++ [Root]) (mt_new smap_new)) with
  | Val (Ok [_; _; _; _; (f, r)]), Val (Ok [(f', r')]) => (f =? f') && b32_eqb r r'
  | _, _ => false
  end = true.
Proof.
  split; [reflexivity|]. split; [split; [repeat constructor; cbn; lia|right; reflexivity]|].
  vm_compute; reflexivity.
Qed.

(** Moving fee between two leaves changes the root. *)
Definition fees_a : list leaf := [(1, [x61]); (2, [x62]); (3, [x63])].
Definition fees_b : list leaf := [(2, [x61]); (1, [x62]); (3, [x63])].
Lemma C53_witness : fees_fit Debug fees_a /\ fees_fit Debug fees_b /\ total_fee fees_a = total_fee fees_b /\
  b32_eqb (mst sha256 wrapped_fee fees_a) (mst sha256 wrapped_fee fees_b) = false.
Proof.
  split; [split; [repeat constructor; cbn; lia|right; reflexivity]|].
  split; [split; [repeat constructor; cbn; lia|right; reflexivity]|].
  split; [reflexivity|]. vm_compute; reflexivity.
Qed.

(** One leaf; the write of the join of the second push fails: all leaves are lost. *)
Definition t54 (pr : profile) : MTree (faulty_state (S := MScratch)) :=
  fst (mt_run sha256 pr FaultyMMap [Push (5, [x61])] (mt_new ([NoFault; NoFault; Fault], smap_new))).
Lemma C54_refuted_lemma : forall pr, exists t t' root,
  mt_run sha256 pr FaultyMMap [Push (5, [x61])] (mt_new ([NoFault; NoFault; Fault], smap_new)) = (t, Val (Ok [])) /\
  snd (mt_root sha256 pr FaultyMMap t) = Val (Ok (5, root)) /\
  mt_push sha256 pr FaultyMMap 6 [x62] t = (t', Val (Err None)) /\
  snd (mt_root sha256 pr FaultyMMap t') = Val (Ok (0, empty_sum)).
Proof.
  intros pr. exists (t54 pr), (fst (mt_push sha256 pr FaultyMMap 6 [x62] (t54 pr))).
  eexists. split; [destruct pr as [[] [] []]; vm_compute; reflexivity|].
  split; [destruct pr as [[] [] []]; vm_compute; reflexivity|]. split; destruct pr; vm_compute; reflexivity.
Qed.

(** The third leaf's first write fails, and the second leaf's. *)
Lemma C54_witness :
  match mt_run sha256 Debug FaultyMMap [Push (5, [x61]); Push (6, [x62])]
          (mt_new ([NoFault; NoFault; NoFault; Fault], smap_new)) with
  | (t, Val (Ok [])) =>
      match mt_push sha256 Debug FaultyMMap 7 [x63] t with
      | (t', Val (Err None)) =>
          match snd (mt_root sha256 Debug FaultyMMap t') with
          | Val (Ok (f, r)) => (f =? 11) && b32_eqb r (mst sha256 wrapped_fee [(5, [x61]); (6, [x62])])
          | _ => false
          end
      | _ => false
      end
  | _ => false
  end = true.
Proof. vm_compute; reflexivity. Qed.

Lemma C55_witness :
  pushed [Push (1, [x61]); Root; Push (2, [x62]); Push (3, [x63])] = fees_a /\
  ~ has_collision sha256 (prefix_inputs sha256 wrapped_fee fees_a) /\
  length (mt_storage (fst (mt_run sha256 Debug MStorageMap (map Push fees_a ++ [Root]) (mt_new smap_new)))) = 5%nat.
Proof.
  split; [reflexivity|]. split; [apply no_collisions_ok; vm_compute; reflexivity|vm_compute; reflexivity].
Qed.
