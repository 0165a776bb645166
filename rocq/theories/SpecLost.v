(** SpecLost.v -- what the calls on a sparse tree may make of the map if the storage fails and
    loses entries.  Independent of the model. *)
From Verif Require Import Base SpecBits SpecBinary SpecSparse SpecAnyRun.

(** As [may_op] (SpecAnyRun.v), except that a delete of a present key that answered Ok may have
    done nothing: the entry of the key may be lost. *)
Definition may_lost_op (m : kvmap) (w : list bytes32) (o : sp_op) (ok : bool) : list kvmap :=
  if ok then
    match o with
    | Update k (b :: v) => [mset k (b :: v) m]
    | Update k [] | Delete k => if existsb (b32_eqb k) w then [m; without_landing k m] else [m]
    end
  else [m].
Fixpoint may_lost (m : kvmap) (w : list bytes32) (obs : list (sp_op * bool)) (m' : kvmap) : Prop :=
  match obs with
  | [] => m' = m
  | (o, ok) :: obs' => exists m1, In m1 (may_lost_op m w o ok) /\ may_lost m1 (op_writes o ++ w) obs' m'
  end.
