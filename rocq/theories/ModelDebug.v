(** ModelDebug.v -- model of the hand-written [fmt::Debug] implementations of
    /repo/src/sparse/node.rs and /repo/src/sum/node.rs, for the format string "{:?}". *)
From Verif Require Import Base ModelText ModelCommon ModelSparse ModelSum.
From Coq Require Import String Decimal DecimalString.

(** Decimal digits of an unsigned integer, as written by [fmt::Debug] for u32 and u64 (Rust standard library) *)
Definition dec (z : Z) : list byte := text (NilZero.string_of_uint (N.to_uint (Z.to_N z))).
(** [fmt::Debug] for a [String] whose characters need no escape (Rust standard library) *)
Definition quoted (s : list byte) : list byte := (text """" ++ s ++ text """")%list.
(** [Formatter::debug_struct], [field], [finish] (Rust standard library) *)
Definition debug_field (f : string * list byte) : list byte := (text (fst f) ++ text ": " ++ snd f)%list.
Fixpoint debug_fields (fs : list (string * list byte)) : list byte :=
  match fs with
  | [] => []
  | [f] => debug_field f
  | f :: fs' => (debug_field f ++ text ", " ++ debug_fields fs')%list
  end.
Definition debug_struct (name : string) (fs : list (string * list byte)) : list byte :=
  (text name ++ text " { " ++ debug_fields fs ++ text " }")%list.

(** sparse/node.rs:143-146 *)
Definition snode_leaf_data (n : SNode) : out bytes32 :=
  _ <-! assert (snode_is_leaf n) ;; Val (sn_bytes_hi n).

(** sparse/node.rs:202-220, and :336-360 where the names begin with "StorageNode" *)
Definition snode_debug (H : list byte -> bytes32) (internal leaf : string) (n : SNode) : out (list byte) :=
  if snode_is_node n then
    l <-! snode_left_child_key n ;;
    r <-! snode_right_child_key n ;;
    Val (debug_struct internal
      [("Height"%string, dec (sn_height n)); ("Hash"%string, quoted (hex_encode (b32 (snode_hash H n))));
       ("Left child key"%string, quoted (hex_encode (b32 l))); ("Right child key"%string, quoted (hex_encode (b32 r)))])
  else
    k <-! snode_leaf_key n ;;
    d <-! snode_leaf_data n ;;
    Val (debug_struct leaf
      [("Height"%string, dec (sn_height n)); ("Hash"%string, quoted (hex_encode (b32 (snode_hash H n))));
       ("Leaf key"%string, quoted (hex_encode (b32 k))); ("Leaf data"%string, quoted (hex_encode (b32 d)))]).
(** sparse/node.rs:202-220 *)
Definition sparse_node_debug H := snode_debug H "Node (Internal)" "Node (Leaf)".
(** sparse/node.rs:336-360 *)
Definition storage_node_debug H := snode_debug H "StorageNode (Internal)" "StorageNode (Leaf)".

(** [Option::unwrap] *)
Definition unwrap {A} (o : option A) : out A := match o with Some x => Val x | None => Panic end.

(** sum/node.rs:70-93, with is_leaf and is_node 61-67 *)
Definition sum_node_debug (n : MNode) : out (list byte) :=
  if negb (mn_height n =? 0) then
    l <-! unwrap (mn_left_child_key n) ;;
    r <-! unwrap (mn_right_child_key n) ;;
    Val (debug_struct "Node (Internal)"
      [("Hash"%string, quoted (hex_encode (b32 (mn_hash n)))); ("Fee"%string, dec (mn_fee n));
       ("Left child key"%string, quoted (hex_encode (b32 l))); ("Right child key"%string, quoted (hex_encode (b32 r)))])
  else
    Val (debug_struct "Node (Leaf)"
      [("Hash"%string, quoted (hex_encode (b32 (mn_hash n)))); ("Fee"%string, dec (mn_fee n));
       ("Key"%string, quoted (hex_encode (b32 (mn_hash n))))]).
