(** SpecRef.v -- what the reference tree of the test helpers answers: specification. *)
From Verif Require Import Base SpecBinary RunsRef.

(** The answers of a tree with the leaves [ds] and the proof index [i], and its leaves and index
    afterwards; none if a call panics. *)
Fixpoint ref_answers (H : list byte -> bytes32) (ds : list (list byte)) (i : Z) (cs : list rt_call)
  : option (list rt_answer * list (list byte) * Z) :=
  match cs with
  | [] => Some ([], ds, i)
  | c :: cs' =>
      let next a ds' i' :=
        match ref_answers H ds' i' cs' with
        | Some (rs, dsn, n) => Some (a :: rs, dsn, n)
        | None => None
        end in
      match c with
      | RSetIndex j => match ds with [] => next ANone ds j | _ :: _ => None end
      | RPush d => next ANone (ds ++ [d]) i
      | RRoot => next (AData (mth H ds)) ds i
      | RCount => next (ANumber (Z.of_nat (length ds))) ds i
      end
  end.

(** Proof indices are u64 values. *)
Definition ref_indices_ok (cs : list rt_call) : Prop :=
  Forall (fun c => match c with RSetIndex i => 0 <= i | _ => True end) cs.
