(** SpecData.v -- what it means for a test to pass, and what the steps of a sparse data test ask for.
    Independent of how the harness executes them. *)
From Coq Require Import String.
From Verif Require Import Base ModelText ModelCommon ModelData SpecSparse.
From Coq Require Import List.

(** A generator returned a test with these labels, index, number of leaves and expected verdict,
    and executing the test succeeds. *)
Definition passes H pr base64_decode (name fn desc : list byte) (index leaves : Z) (verifies : bool) (o : out ProofTest) : Prop :=
  exists t, o = Val t /\ (pt_name t = name /\ pt_function_name t = fn /\ pt_description t = desc) /\
    (pt_proof_index t = index /\ pt_num_leaves t = leaves /\ pt_expected_verification t = verifies) /\
    proof_test_execute H pr base64_decode t = Val (Ok tt).

Section Steps.
Variable base64_decode : list byte -> option (list byte).
Notation bytes_of := (ev_into_bytes base64_decode).

(** The step is a well-formed request for the operation. *)
Inductive asks : Step -> sp_op -> Prop :=
| Asks_update : forall ek ed k d, bytes_of ek = Ok (b32 k) -> bytes_of ed = Ok d ->
    asks {| sp_action := text "update"; sp_key := Some ek; sp_data := Some ed |} (Update k d)
| Asks_delete : forall ek od k, bytes_of ek = Ok (b32 k) ->
    asks {| sp_action := text "delete"; sp_key := Some ek; sp_data := od |} (Delete k).

Definition wrong_key (ek : EncodedValue) : Prop := exists b, bytes_of ek = Ok b /\ length b <> 32%nat.

(** What becomes of the test run at a step that asks for nothing. *)
Inductive breaks : Step -> out (result TestError unit) -> Prop :=
| Breaks_action : forall a k d, a <> text "update" -> a <> text "delete" ->
    breaks {| sp_action := a; sp_key := k; sp_data := d |} (Val (Err (TUnsupportedAction a)))
| Breaks_no_key : forall a d, a = text "update" \/ a = text "delete" ->
    breaks {| sp_action := a; sp_key := None; sp_data := d |} Panic
| Breaks_no_data : forall ek, breaks {| sp_action := text "update"; sp_key := Some ek; sp_data := None |} Panic
| Breaks_key_update : forall ek ed e, bytes_of ek = Err e ->
    breaks {| sp_action := text "update"; sp_key := Some ek; sp_data := Some ed |} (Val (Err TDecodingError))
| Breaks_key_delete : forall ek od e, bytes_of ek = Err e ->
    breaks {| sp_action := text "delete"; sp_key := Some ek; sp_data := od |} (Val (Err TDecodingError))
| Breaks_length_update : forall ek ed, wrong_key ek ->
    breaks {| sp_action := text "update"; sp_key := Some ek; sp_data := Some ed |} Panic
| Breaks_length_delete : forall ek od, wrong_key ek ->
    breaks {| sp_action := text "delete"; sp_key := Some ek; sp_data := od |} Panic
| Breaks_data : forall ek ed k e, bytes_of ek = Ok (b32 k) -> bytes_of ed = Err e ->
    breaks {| sp_action := text "update"; sp_key := Some ek; sp_data := Some ed |} (Val (Err TDecodingError)).
End Steps.
