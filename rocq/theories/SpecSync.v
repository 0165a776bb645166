(** SpecSync.v -- a storage that holds the nodes of a map, and possibly other things.
    Independent of the model. *)
From Verif Require Import Base SpecBits SpecBinary SpecSparse SpecAnyRun SpecDisk.

Section Sync.
Variable H : list byte -> bytes32.

(** The nodes of the tree of [m]: those met on the path of some key. *)
Definition node_of (m : kvmap) (h : bytes32) (e : entry) : Prop := exists k, In (h, Some e) (path_in H k m).
(** [d] holds all of them. *)
Definition holds_nodes (d : disk) (m : kvmap) : Prop := forall h e, node_of m h e -> d h = Some e.
(** [d] holds nothing else in the places of the nodes of [ms], and under the keys [ks] leaves of
    these keys, if anything. *)
Definition no_conflict (d : disk) (ks : list bytes32) (ms : list kvmap) : Prop :=
  (forall m h e, In m ms -> node_of m h e -> d h = None \/ d h = Some e) /\
  (forall k, In k ks -> d k = None \/ exists h, d k = Some (0, x00, k, h)).
End Sync.
