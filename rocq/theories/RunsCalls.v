(** RunsCalls.v -- arbitrary sequences of API calls that carry on after errors, with all their
    answers. *)
From Verif Require Import Base Storage ModelCommon ModelBinary ModelSum SpecSum.

Inductive bt_call := CPush (d : list byte) | CProve (i : Z) | CRoot.
Inductive bt_answer (E : Type) :=
| APush (r : result (BError E) unit)
| AProve (r : result (BError E) (bytes32 * list bytes32))
| ARoot (h : bytes32).
Arguments APush {E} r.
Arguments AProve {E} r.
Arguments ARoot {E} h.

Section Binary.
Variable H : list byte -> bytes32.
Variable pr : profile.
Context {S E : Type}.
Variable st : StorageT S Z BPrimitive E.

Definition bt_do (c : bt_call) : M (BTree S) (bt_answer E) :=
  match c with
  | CPush d => r <- bt_push H pr st d ;; ret (APush r)
  | CProve i => r <- bt_prove H pr st i ;; ret (AProve r)
  | CRoot => t <- get_state ;; h <- lift (bt_root H pr t) ;; ret (ARoot h)
  end.
Fixpoint bt_calls (cs : list bt_call) : M (BTree S) (list (bt_answer E)) :=
  match cs with
  | [] => ret []
  | c :: cs' => a <- bt_do c ;; l <- bt_calls cs' ;; ret (a :: l)
  end.
End Binary.

Section Sum.
Variable H : list byte -> bytes32.
Variable pr : profile.
Context {S E : Type}.
Variable st : StorageT S bytes32 MNode E.

(** A push answers [Ok None], a root request [Ok (Some root)]. *)
Definition mt_do (o : sum_op) : M (MTree S) (result E (option (Z * bytes32))) :=
  match o with
  | Push l => _ <-? mt_push H pr st (fst l) (snd l) ;; ret (Ok None)
  | Root => r <-? mt_root H pr st ;; ret (Ok (Some r))
  end.
Fixpoint mt_run_all (os : list sum_op) : M (MTree S) (list (result E (option (Z * bytes32)))) :=
  match os with
  | [] => ret []
  | o :: os' => a <- mt_do o ;; l <- mt_run_all os' ;; ret (a :: l)
  end.
End Sum.
