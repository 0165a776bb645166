(** SpecShared.v -- several sparse trees in one storage, with deletes: specification. *)
From Verif Require Import Base SpecSparse.

Section Shared.
Variable H : list byte -> bytes32.

(** Both maps have an entry with this key, and the same digest of the data. *)
Definition shared (k : bytes32) (m m2 : kvmap) : bool :=
  match lookup k m, lookup k m2 with
  | Some v, Some v2 => b32_eqb (H v) (H v2)
  | _, _ => false
  end.
(** One of the calls, made on a tree of [m], deletes an entry that [m2] has too. *)
Definition hits (m : kvmap) (o : sp_op) (m2 : kvmap) : bool :=
  match o with
  | Update _ (_ :: _) => false
  | Update k [] | Delete k => shared k m m2
  end.
Fixpoint spoils (m : kvmap) (os : list sp_op) (m2 : kvmap) : bool :=
  match os with
  | [] => false
  | o :: os' => hits m o m2 || spoils (apply_op m o) os' m2
  end.
(** The versions that stay usable; [None] stands for one that does not. *)
Definition spoil (m : kvmap) (os : list sp_op) (v : option kvmap) : option kvmap :=
  match v with
  | Some m2 => if spoils m os m2 then None else Some m2
  | None => None
  end.

(** Every session starts from a version that is still usable (or from the empty map), and deletes
    only keys that are in its map or were never written by any session; [vs] are the versions so
    far and [w] the keys written so far. *)
Fixpoint fair {A B} (vs : list (option kvmap)) (w : list bytes32) (acts : list (nat * list sp_op))
  (rs : list (result A B)) : Prop :=
  match acts, rs with
  | (i, os) :: acts', r :: rs' =>
      exists m, nth i vs (Some []) = Some m /\ clean m w os /\
      fair (map (spoil m os) vs ++ match r with Ok _ => [Some (fold_left apply_op os m)] | Err _ => [] end)
        (written os ++ w) acts' rs'
  | _, _ => True
  end.
(** All sessions succeed. *)
Definition fine (acts : list (nat * list sp_op)) : list (result unit unit) := map (fun _ => Ok tt) acts.
(** The versions in the end, if all sessions succeed. *)
Fixpoint usable (vs : list (option kvmap)) (acts : list (nat * list sp_op)) : list (option kvmap) :=
  match acts with
  | [] => vs
  | (i, os) :: acts' =>
      match nth i vs (Some []) with
      | Some m => usable (map (spoil m os) vs ++ [Some (fold_left apply_op os m)]) acts'
      | None => []
      end
  end.
End Shared.
