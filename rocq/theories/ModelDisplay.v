(** ModelDisplay.v -- the [Display] texts that `thiserror` derives from the [error] attributes
    (feature "std").  [show] stands for the [Display] of the storage's error; [dec] writes the
    decimal digits of an unsigned integer, as [Display] does.  Left out: [ChildError] and the
    sparse [MerkleTreeError], whose [Display] asks for one of the key type [u8; 32], which has none. *)
From Verif Require Import Base ModelText ModelCommon ModelBinary ModelDebug.
From Coq Require Import String.
Open Scope list_scope.

(** /repo/src/binary/merkle_tree.rs:13-26 *)
Definition berror_display {E} (show : E -> list byte) (e : BError E) : list byte :=
  match e with
  | BInvalidProofIndex i => text "proof index " ++ dec i ++ text " is not valid"
  | BLoadError k => text "cannot load node with key " ++ dec k ++ text "; the key is not found in storage"
  | BStorageError e => show e
  end.

(** /repo/src/common/prefix.rs:36-40 *)
Definition prefix_error_display (e : PrefixError) : list byte :=
  match e with InvalidPrefix b => text "prefix " ++ dec (Z_of_byte b) ++ text " is not valid" end.
