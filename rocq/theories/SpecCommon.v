(** SpecCommon.v -- vocabulary for the properties of positions, bits and maps,
    independent of the model. *)
From Verif Require Import Base SpecBinary SpecBits SpecPosition.

(** [h; h-1; ...; 0] *)
Fixpoint down_from (h : nat) : list nat :=
  match h with O => [O] | S h' => h :: down_from h' end.

(** [z] is the index of a node that exists in a tree of [n] leaves. *)
Definition exists_in (n : nat) (z : Z) : Prop :=
  exists h b, z = index_of h b /\ node_exists n h b = true.

(** Two bit strings agree on the first [c] bits. *)
Definition agree (c : nat) (a b : list byte) : Prop :=
  firstn c (bits_of a) = firstn c (bits_of b).

(** * A partial map driven by a sequence of operations. *)
Section MapSpec.
Context {K V : Type}.
Inductive map_op := OpGet (k : K) | OpContains (k : K) | OpInsert (k : K) (v : V) | OpRemove (k : K).
Inductive map_answer := Value (v : option V) | Flag (b : bool).

(** What each operation answers on the map [m], and the map it leaves: [step m o a m']. *)
Inductive map_step (m : K -> option V) : map_op -> map_answer -> (K -> option V) -> Prop :=
| step_get : forall k, map_step m (OpGet k) (Value (m k)) m
| step_has : forall k v, m k = Some v -> map_step m (OpContains k) (Flag true) m
| step_has_not : forall k, m k = None -> map_step m (OpContains k) (Flag false) m
| step_insert : forall k v m', m' k = Some v -> (forall x, x <> k -> m' x = m x) ->
    map_step m (OpInsert k v) (Value (m k)) m'
| step_remove : forall k m', m' k = None -> (forall x, x <> k -> m' x = m x) ->
    map_step m (OpRemove k) (Value (m k)) m'.

Inductive map_run : (K -> option V) -> list map_op -> list map_answer -> (K -> option V) -> Prop :=
| run_nil : forall m, map_run m [] [] m
| run_cons : forall m o a m1 os xs m2,
    map_step m o a m1 -> map_run m1 os xs m2 -> map_run m (o :: os) (a :: xs) m2.
End MapSpec.
Arguments map_op : clear implicits.
Arguments map_answer : clear implicits.
