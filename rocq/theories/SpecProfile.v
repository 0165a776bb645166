(** SpecProfile.v -- comparing builds.  A build has two switches (overflow checks, debug
    assertions) and a width of usize. *)
From Verif Require Import Base Storage ModelSparse.

(** Every check of the build [q] is also made by the build [p]. *)
Definition at_least (p q : profile) : Prop :=
  (overflow_checks q = true -> overflow_checks p = true) /\
  (debug_assertions q = true -> debug_assertions p = true).
(** The two builds make the same checks; the width of usize may differ. *)
Definition same_switches (p q : profile) : Prop :=
  overflow_checks p = overflow_checks q /\ debug_assertions p = debug_assertions q.

(** The first build does what the second does, unless it panics. *)
Definition out_refines {A} (strict loose : out A) : Prop := strict = Panic \/ strict = loose.
Definition run_refines {S A} (strict loose : S * out A) : Prop := snd strict = Panic \/ strict = loose.

(** Heights are u32 in the code: the height of a node, the height in a storage entry, and a
    storage that gives back such entries as long as it is given such entries. *)
Definition u32_node (n : SNode) : Prop := 0 <= sn_height n < 2 ^ 32.
Definition u32_entry (p : SPrimitive) : Prop := let '(height, _, _, _) := p in 0 <= height < 2 ^ 32.
Record Typed {S E} (st : StorageT S bytes32 SPrimitive E) (good : S -> Prop) : Prop := {
  typed_get : forall k s s' r, good s -> s_get st k s = (s', r) ->
    good s' /\ match r with Ok (Some p) => u32_entry p | _ => True end;
  typed_insert : forall k p s s' r, good s -> u32_entry p -> s_insert st k p s = (s', r) -> good s';
  typed_remove : forall k s s' r, good s -> s_remove st k s = (s', r) -> good s'
}.
Definition typed_tree {S} (good : S -> Prop) (t : SpTree S) : Prop :=
  u32_node (sp_root_node t) /\ good (sp_storage t).
