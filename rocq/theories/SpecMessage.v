(** SpecMessage.v -- what the messages of errors say.  Independent of the model. *)
From Verif Require Import Base ModelText SpecText.
From Coq Require Import String.
Open Scope list_scope.

(** The message [m] is [a], the number [z] in decimal, [b]. *)
Definition names (a b : string) (z : Z) (m : list byte) : Prop :=
  exists d, SpecText.decimal d z /\ m = text a ++ d ++ text b.
Definition says_missing : Z -> list byte -> Prop := names "cannot load node with key " "; the key is not found in storage".
Definition says_bad_index : Z -> list byte -> Prop := names "proof index " " is not valid".
Definition says_bad_prefix : Z -> list byte -> Prop := names "prefix " " is not valid".
