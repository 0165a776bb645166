(** WitnessUntrusted.v -- concrete cases for the theorems of PropertiesUntrusted.v. *)
From Verif Require Import Base Sha256 Storage ModelCommon ModelBinary SpecBinary SpecPosition SpecBinaryAny
  SpecUntrusted StorageProofs Runs RunsCalls BindingProofs BinaryExtra WitnessBinary.

(** The leaf a under key 0, with a position of 1. *)
Definition misplaced : Scratch := [(0, (1, hash_leaf sha256 [x61]))].

(** Two pushes and a root request: the two new leaves are joined first. *)
Lemma C92_refuted_lemma : forall pr, exists s' t t' root,
  bt_load pr BStorageMap 1 misplaced = (s', Val (Ok t)) /\ bt_root sha256 pr t = Val (mth sha256 [[x61]]) /\
  bt_calls sha256 pr BStorageMap [CPush [x62]; CPush [x63]; CRoot] t = (t', Val [APush (Ok tt); APush (Ok tt); ARoot root]) /\
  root <> mth sha256 [[x61]; [x62]; [x63]].
Proof.
  intros pr.
  assert (A : exists s' t t' root, bt_load pr BStorageMap 1 misplaced = (s', Val (Ok t)) /\
    match bt_root sha256 pr t with Val r => b32_eqb r (mth sha256 [[x61]]) | _ => false end = true /\
    bt_calls sha256 pr BStorageMap [CPush [x62]; CPush [x63]; CRoot] t = (t', Val [APush (Ok tt); APush (Ok tt); ARoot root]) /\
    b32_eqb root (mth sha256 [[x61]; [x62]; [x63]]) = false).
  { destruct pr as [[] [] []]; eexists _, _, _, _; (split; [vm_compute; reflexivity|]); (split; [vm_compute; reflexivity|]);
      (split; [vm_compute; reflexivity|]); vm_compute; reflexivity. }
  destruct A as (s' & t & t' & root & A1 & A2 & A3 & A4). apply by_eqb in A2.
  exists s', t, t', root. split; [exact A1|]. split; [exact A2|]. split; [exact A3|].
  intros C. apply b32_eqb_eq in C. rewrite C in A4. discriminate A4.
Qed.

(** A storage of three leaves with the two entries that are loaded, and an entry that is wrong. *)
Definition abc : list (list byte) := [[x61]; [x62]; [x63]].
Definition partly : Scratch :=
  [(1, (1, hash_node sha256 (hash_leaf sha256 [x61]) (hash_leaf sha256 [x62])));
   (4, (4, hash_leaf sha256 [x63])); (2, (2, hash_leaf sha256 [x7a]))].

Lemma partly_in_place : in_place (smap_lookup Z.eqb) partly.
Proof.
  intros k p. unfold partly. cbn [smap_lookup].
  destruct (Z.eqb_spec k 1); [intros E; injection E as <-; symmetry; assumption|].
  destruct (Z.eqb_spec k 4); [intros E; injection E as <-; symmetry; assumption|].
  destruct (Z.eqb_spec k 2); [intros E; injection E as <-; symmetry; assumption|]. discriminate.
Qed.

Fixpoint collidesb (l : list (list byte)) : bool :=
  match l with
  | [] => false
  | x :: l => existsb (fun y => b32_eqb (sha256 x) (sha256 y) && negb (if list_eq_dec Byte.byte_eq_dec x y then true else false)) l || collidesb l
  end.
Lemma collidesb_ok : forall l, collidesb l = false -> ~ has_collision sha256 l.
Proof.
  induction l as [|x l IH]; intros E (a & b & A & B & N & C).
  - destruct A.
  - cbn [collidesb] in E. apply orb_false_iff in E. destruct E as [E1 E2].
    assert (F : forall y, In y l -> sha256 x = sha256 y -> x = y).
    { intros y Hy Ey. destruct (list_eq_dec Byte.byte_eq_dec x y) as [|Ny]; auto. exfalso.
      assert (T : existsb (fun y => b32_eqb (sha256 x) (sha256 y) && negb (if list_eq_dec Byte.byte_eq_dec x y then true else false)) l = true).
      { apply existsb_exists. exists y. split; [exact Hy|]. apply andb_true_iff. split; [apply b32_eqb_eq; exact Ey|].
        destruct (list_eq_dec Byte.byte_eq_dec x y); [contradiction|reflexivity]. }
      congruence. }
    destruct A as [<-|A], B as [<-|B].
    + apply N. reflexivity.
    + apply N. apply F; auto.
    + apply N. symmetry. apply F; auto.
    + apply (IH E2). exists a, b. auto.
Qed.

Lemma C92_witness :
  Lawful BStorageMap (smap_lookup Z.eqb) /\ in_place (smap_lookup Z.eqb) partly /\
  ~ has_collision sha256 (mth_inputs sha256 abc ++ joins sha256 (stored_hashes (smap_lookup Z.eqb) (length abc) partly)) /\
  length (joins sha256 (stored_hashes (smap_lookup Z.eqb) (length abc) partly)) = 1%nat /\
  exists s' t t', bt_load Debug BStorageMap (Z.of_nat (length abc)) partly = (s', Val (Ok t)) /\
    bt_root sha256 Debug t = Val (mth sha256 abc) /\
    bt_calls sha256 Debug BStorageMap [CPush [x64]; CRoot; CProve 1] t =
      (t', Val [APush (Ok tt); ARoot (mth sha256 (abc ++ [[x64]]));
                AProve (Err (BLoadError 0))]).
Proof.
  split; [exact BStorageMap_lawful|]. split; [exact partly_in_place|].
  split; [apply collidesb_ok; vm_compute; reflexivity|]. split; [vm_compute; reflexivity|].
  assert (A : exists s' t t' root, bt_load Debug BStorageMap (Z.of_nat (length abc)) partly = (s', Val (Ok t)) /\
    match bt_root sha256 Debug t with Val r => b32_eqb r (mth sha256 abc) | _ => false end = true /\
    bt_calls sha256 Debug BStorageMap [CPush [x64]; CRoot; CProve 1] t =
      (t', Val [APush (Ok tt); ARoot root; AProve (Err (BLoadError 0))]) /\
    b32_eqb root (mth sha256 (abc ++ [[x64]])) = true).
  { eexists _, _, _, _; (split; [vm_compute; reflexivity|]); (split; [vm_compute; reflexivity|]);
      (split; [vm_compute; reflexivity|]); vm_compute; reflexivity. }
  destruct A as (s' & t & t' & root & A1 & A2 & A3 & A4). apply by_eqb in A2. apply b32_eqb_eq in A4. subst root.
  exists s', t, t'. auto.
Qed.
