(** SpecAnyRun.v -- what arbitrary calls on a sparse tree may make of the map, if any of them
    may fail.  Independent of the model. *)
From Verif Require Import Base SpecBits SpecBinary SpecSparse.

(** The map without the entry the path of [k] leads to. *)
Definition without_landing (k : bytes32) (m : kvmap) : kvmap :=
  match landing 256 0 k m with Some k' => mdel k' m | None => m end.

(** The maps possible after one call: [w] are the keys passed to non-empty updates before,
    [ok] says if the call answered Ok.  A call that fails changes nothing; so does a delete
    of a key never written; a delete of a present key removes it; a delete of another key
    removes nothing, or the entry the path of the key leads to. *)
Definition may_op (m : kvmap) (w : list bytes32) (o : sp_op) (ok : bool) : list kvmap :=
  if ok then
    match o with
    | Update k (b :: v) => [mset k (b :: v) m]
    | Update k [] | Delete k =>
        if existsb (b32_eqb k) w
        then if existsb (b32_eqb k) (keys m) && negb (b32_eqb k zero32) then [mdel k m]
             else [m; without_landing k m]
        else [m]
    end
  else [m].
Fixpoint may (m : kvmap) (w : list bytes32) (obs : list (sp_op * bool)) (m' : kvmap) : Prop :=
  match obs with
  | [] => m' = m
  | (o, ok) :: obs' => exists m1, In m1 (may_op m w o ok) /\ may m1 (op_writes o ++ w) obs' m'
  end.

(** All maps that may be passed through or aimed at, whichever calls fail. *)
Fixpoint possible (m : kvmap) (os : list sp_op) : list kvmap :=
  match os with
  | [] => [m]
  | o :: os' =>
      m :: possible m os' ++
      match o with
      | Update k (b :: v) => possible (mset k (b :: v) m) os'
      | Update k [] | Delete k => possible (without_landing k m) os'
      end
  end.

(** No delete has failed. *)
Fixpoint deletes_ok (obs : list (sp_op * bool)) : bool :=
  match obs with
  | [] => true
  | (Update _ (_ :: _), _) :: obs' => deletes_ok obs'
  | (_, ok) :: obs' => ok && deletes_ok obs'
  end.
