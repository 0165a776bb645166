(** SpecAlike.v -- two storages that answer alike.  [R] relates their states; a call from related
    states gives answers a tree cannot tell apart and related states again.  Of a write only
    success or the error counts, not the previous value it answers. *)
From Verif Require Import Base Storage ModelCommon ModelBinary ModelSparse ModelSum.

Definition same_kind {E A} (a b : result E A) : Prop :=
  match a, b with Ok _, Ok _ => True | Err e, Err e' => e = e' | _, _ => False end.

Section Alike.
Context {S1 S2 K V E : Type}.
Variable R : S1 -> S2 -> Prop.
Variable st1 : StorageT S1 K V E.
Variable st2 : StorageT S2 K V E.

Definition gets_alike : Prop := forall k a b, R a b ->
  R (fst (s_get st1 k a)) (fst (s_get st2 k b)) /\ snd (s_get st1 k a) = snd (s_get st2 k b).
Definition inserts_alike : Prop := forall k v a b, R a b ->
  R (fst (s_insert st1 k v a)) (fst (s_insert st2 k v b)) /\ same_kind (snd (s_insert st1 k v a)) (snd (s_insert st2 k v b)).
Definition removes_alike : Prop := forall k a b, R a b ->
  R (fst (s_remove st1 k a)) (fst (s_remove st2 k b)) /\ same_kind (snd (s_remove st1 k a)) (snd (s_remove st2 k b)).
End Alike.

(** Two runs of a computation answer the same and end in related states. *)
Definition runs_alike {A B C} (R : A -> B -> Prop) (x : A * out C) (y : B * out C) : Prop :=
  R (fst x) (fst y) /\ snd x = snd y.

(** Trees equal but for their storages, which are related. *)
Definition bt_alike {S1 S2} (R : S1 -> S2 -> Prop) (t1 : BTree S1) (t2 : BTree S2) : Prop :=
  bt_head t1 = bt_head t2 /\ bt_leaves_count t1 = bt_leaves_count t2 /\ R (bt_storage t1) (bt_storage t2).
Definition sp_alike {S1 S2} (R : S1 -> S2 -> Prop) (t1 : SpTree S1) (t2 : SpTree S2) : Prop :=
  sp_root_node t1 = sp_root_node t2 /\ R (sp_storage t1) (sp_storage t2).
Definition mt_alike {S1 S2} (R : S1 -> S2 -> Prop) (t1 : MTree S1) (t2 : MTree S2) : Prop :=
  mt_head t1 = mt_head t2 /\ R (mt_storage t1) (mt_storage t2).

(** Two loads end in related storages with trees that are alike, or with the same error or panic. *)
Definition loads_alike {S1 S2 X T1 T2} (R : S1 -> S2 -> Prop) (RT : T1 -> T2 -> Prop)
  (x : S1 * out (result X T1)) (y : S2 * out (result X T2)) : Prop :=
  R (fst x) (fst y) /\
  match snd x, snd y with
  | Val (Ok t1), Val (Ok t2) => RT t1 t2
  | Val (Err e1), Val (Err e2) => e1 = e2
  | Panic, Panic | Fuel, Fuel => True
  | _, _ => False
  end.
