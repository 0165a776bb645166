(** SpecOpen.v -- sparse trees on one storage, opened from any root met before and used in turns:
    specification.  Independent of the model. *)
From Verif Require Import Base SpecBits SpecBinary SpecSparse SpecAnyRun SpecLost.

(** What happens: a call with its answer, an empty tree started, the root met as number [j]
    opened (with the answer), the tree met as number [j] taken up again, entries lost.  [A] are the errors. *)
Inductive event (A : Type) :=
| Called (o : sp_op) (r : result A unit)
| Started
| Opened (j : nat) (r : result A unit)
| Resumed (j : nat)
| Lost.
Arguments Called {A}. Arguments Started {A}. Arguments Opened {A}. Arguments Resumed {A}. Arguments Lost {A}.

Section Open.
Context {A : Type}.
Definition fine_answer (r : result A unit) : bool := match r with Ok _ => true | Err _ => false end.
Definition calls_of (evs : list (event A)) : list sp_op :=
  concat (map (fun e => match e with Called o _ => [o] | _ => [] end) evs).

(** [explains lost w ms m evs ms']: the events can turn the map [m] in use into those of [ms'],
    one after each event.  [ms] are the maps in use before (number [j] is the one of the root of
    this number), [w] the keys written before, [lost] says if entries were lost before. *)
Fixpoint explains (lost : bool) (w : list bytes32) (ms : list kvmap) (m : kvmap) (evs : list (event A)) (ms' : list kvmap) : Prop :=
  match evs, ms' with
  | [], [] => True
  | e :: evs', m' :: ms1 =>
      match e with
      | Called o r =>
          In m' ((if lost then may_lost_op else may_op) m w o (fine_answer r)) /\
          explains lost (op_writes o ++ w) (ms ++ [m']) m' evs' ms1
      | Started => m' = [] /\ explains lost w (ms ++ [m']) m' evs' ms1
      | Opened j r => m' = (if fine_answer r then nth j ms [] else m) /\ explains lost w (ms ++ [m']) m' evs' ms1
      | Resumed j => m' = nth j ms [] /\ explains lost w (ms ++ [m']) m' evs' ms1
      | Lost => m' = m /\ explains true w (ms ++ [m']) m' evs' ms1
      end
  | _, _ => False
  end.
End Open.
