(** Runs.v -- vocabulary for stating properties of the trees through their API:
    running a sequence of calls as a user of the crate would (stopping at the first
    error), and the observable behaviour of a tree.  No code of the crate is modelled
    here. *)
From Verif Require Import Base Storage ModelCommon ModelBinary ModelVerify SpecBinary.

(** The number of leaves below which paths can be computed in each build profile. *)
Definition leaf_limit (pr : profile) : Z := if overflow_checks pr then 2 ^ 62 else 2 ^ 63.

(** Result of a fallible call: [Ok] with a value satisfying [P], or a storage error; the
    latter only if the storage can fail at all. *)
Definition ok_or_fault {S K V E A} (st : StorageT S K V E) (r : result (BError E) A) (P : A -> Prop) : Prop :=
  (exists a, r = Ok a /\ P a) \/ (~ Infallible st /\ exists e, r = Err (BStorageError e)).

Section Binary.
Variable H : list byte -> bytes32.
Variable pr : profile.
Context {S E : Type}.
Variable st : StorageT S Z BPrimitive E.

Fixpoint bt_push_all (ds : list (list byte)) : M (BTree S) (result (BError E) unit) :=
  match ds with
  | [] => ret (Ok tt)
  | d :: ds' => _ <-? bt_push H pr st d ;; bt_push_all ds'
  end.

(** [prove i] answers as it should on a tree with leaves [ds]. *)
Definition proves_as (ds : list (list byte)) (t : BTree S) : Prop :=
  (forall i d, nth_error ds i = Some d -> exists t' r,
     bt_prove H pr st (Z.of_nat i) t = (t', Val r) /\
     ok_or_fault st r (fun x => x = (mth H ds, hash_leaf H d :: audit_path H i ds))) /\
  (forall i, Z.of_nat (length ds) <= i < 2 ^ 64 - 1 ->
     bt_prove H pr st i t = (t, Val (Err (BInvalidProofIndex i)))).

(** The tree behaves as the tree with leaves [ds], now and after any further pushes. *)
Definition behaves_as (ds : list (list byte)) (t : BTree S) : Prop :=
  forall es, Z.of_nat (length (ds ++ es)) < leaf_limit pr ->
  exists t' r, bt_push_all es t = (t', Val r) /\
  ok_or_fault st r (fun _ => bt_root H pr t' = Val (mth H (ds ++ es)) /\ proves_as (ds ++ es) t').
End Binary.

(** Pushes on the in-memory binary tree. *)
Fixpoint bim_push_all (H : list byte -> bytes32) (pr : profile) (ds : list (list byte))
  : M (BTree Scratch) unit :=
  match ds with
  | [] => ret tt
  | d :: ds' => _ <- bim_push H pr d ;; bim_push_all H pr ds'
  end.

(** Pushes on the reference tree of the test helpers, for a proof of leaf [i]. *)
Fixpoint rt_push_all (H : list byte -> bytes32) (pr : profile) (ds : list (list byte)) (t : RTree) : out RTree :=
  match ds with
  | [] => Val t
  | d :: ds' => t' <-! rt_push H pr d t ;; rt_push_all H pr ds' t'
  end.
Definition rt_build (H : list byte -> bytes32) (pr : profile) (i : Z) (ds : list (list byte)) : out RTree :=
  t <-! rt_set_proof_index i rt_new ;; rt_push_all H pr ds t.
