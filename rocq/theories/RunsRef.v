(** RunsRef.v -- sequences of calls on the reference tree of the test helpers (no code of the
    repository: these are the callers). *)
From Verif Require Import Base ModelCommon ModelBinary ModelVerify.

Inductive rt_call : Type := RSetIndex (i : Z) | RPush (d : list byte) | RRoot | RCount.
Inductive rt_answer : Type := ANone | AData (r : bytes32) | ANumber (n : Z).

Definition rt_answer_call (H : list byte -> bytes32) (pr : profile) (c : rt_call) (t : RTree) : out (RTree * rt_answer) :=
  match c with
  | RSetIndex i => t' <-! rt_set_proof_index i t ;; Val (t', ANone)
  | RPush d => t' <-! rt_push H pr d t ;; Val (t', ANone)
  | RRoot => r <-! rt_root H pr t ;; Val (t, AData r)
  | RCount => Val (t, ANumber (rt_leaves_count t))
  end.

Fixpoint rt_calls (H : list byte -> bytes32) (pr : profile) (cs : list rt_call) (t : RTree) : out (RTree * list rt_answer) :=
  match cs with
  | [] => Val (t, [])
  | c :: cs' =>
      '(t1, r) <-! rt_answer_call H pr c t ;;
      '(t2, rs) <-! rt_calls H pr cs' t1 ;;
      Val (t2, r :: rs)
  end.
