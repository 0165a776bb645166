(** SpecSparse.v -- specification of compressed sparse Merkle trees over 256-bit keys, and of
    histories of updates and deletes on a key-value map.  Independent of the model. *)
From Verif Require Import Base SpecBits SpecBinary.

(** * Maps as lists of entries, at most one per key *)
Section Maps.
Context {V : Type}.
Definition mdel (k : bytes32) (m : list (bytes32 * V)) : list (bytes32 * V) :=
  filter (fun e => negb (b32_eqb (fst e) k)) m.
Definition mset (k : bytes32) (v : V) (m : list (bytes32 * V)) : list (bytes32 * V) := (k, v) :: mdel k m.
Definition keys (m : list (bytes32 * V)) : list bytes32 := map fst m.
Fixpoint lookup (k : bytes32) (m : list (bytes32 * V)) : option V :=
  match m with
  | [] => None
  | (k', v) :: m' => if b32_eqb k' k then Some v else lookup k m'
  end.
End Maps.

(** Bit number [d] of a key, the most significant bit first. *)
Definition kbit (k : bytes32) (d : nat) : bool := nth d (bits_of k) false.
(** The entries whose key has bit [d] equal to [b]. *)
Definition with_bit {V} (d : nat) (b : bool) (l : list (bytes32 * V)) : list (bytes32 * V) :=
  filter (fun e => Bool.eqb (kbit (fst e) d) b) l.

(** * The tree *)
Section Spec.
Variable H : list byte -> bytes32.

Definition smt_leaf_input (k h : bytes32) : list byte := x00 :: b32 k ++ b32 h.
Definition smt_node_input (l r : bytes32) : list byte := x01 :: b32 l ++ b32 r.

(** The hash a stored entry with prefix byte [b] stands for: an entry of zeros is the empty
    subtree. *)
Definition entry_hash (b : byte) (lo hi : bytes32) : bytes32 :=
  if b32_eqb lo zero32 && b32_eqb hi zero32 then zero32 else H (b :: b32 lo ++ b32 hi).

(** The root of a subtree at depth [d] with [n] bits to go, for entries (key, digest of the
    data): zero if there is no entry, the leaf itself if there is one, else the hash of both
    halves. *)
Fixpoint smt (n d : nat) (l : list (bytes32 * bytes32)) : bytes32 :=
  match l with
  | [] => zero32
  | [(k, h)] => H (smt_leaf_input k h)
  | _ :: _ :: _ =>
      match n with
      | O => zero32                      (* two equal keys; does not occur *)
      | S n' => H (smt_node_input (smt n' (S d) (with_bit d false l)) (smt n' (S d) (with_bit d true l)))
      end
  end.

(** All byte strings hashed for it. *)
Fixpoint smt_inputs (n d : nat) (l : list (bytes32 * bytes32)) : list (list byte) :=
  match l with
  | [] => []
  | [(k, h)] => [smt_leaf_input k h]
  | _ :: _ :: _ =>
      match n with
      | O => []
      | S n' =>
          smt_node_input (smt n' (S d) (with_bit d false l)) (smt n' (S d) (with_bit d true l))
          :: smt_inputs n' (S d) (with_bit d false l) ++ smt_inputs n' (S d) (with_bit d true l)
      end
  end.

(** Key-value maps: data are byte strings. *)
Definition kvmap : Type := list (bytes32 * list byte).
Definition digests (m : kvmap) : list (bytes32 * bytes32) := map (fun e => (fst e, H (snd e))) m.
Definition kv_root (m : kvmap) : bytes32 := smt 256 0 (digests m).
Definition kv_inputs (m : kvmap) : list (list byte) := smt_inputs 256 0 (digests m).

(** Following the bits of [k] from depth [d] until at most one entry is left: its key. *)
Fixpoint landing {V} (n d : nat) (k : bytes32) (l : list (bytes32 * V)) : option bytes32 :=
  match l with
  | [] => None
  | [e] => Some (fst e)
  | _ :: _ :: _ =>
      match n with
      | O => None
      | S n' => landing n' (S d) k (with_bit d (kbit k d) l)
      end
  end.

(** * Histories *)
Inductive sp_op := Update (k : bytes32) (v : list byte) | Delete (k : bytes32).
Definition op_key (o : sp_op) : bytes32 := match o with Update k _ => k | Delete k => k end.

(** What an operation should do to the map; empty data means deletion. *)
Definition apply_op (m : kvmap) (o : sp_op) : kvmap :=
  match o with
  | Update k [] => mdel k m
  | Update k v => mset k v m
  | Delete k => mdel k m
  end.
Definition final (os : list sp_op) : kvmap := fold_left apply_op os [].

(** The keys written (with non-empty data) by an operation. *)
Definition op_writes (o : sp_op) : list bytes32 :=
  match o with Update k (_ :: _) => [k] | _ => [] end.
Definition written (os : list sp_op) : list bytes32 := concat (map op_writes os).

(** Deletions only target keys that are in the map or were never written before: [m] and [w]
    are the map and the keys written so far. *)
Fixpoint clean (m : kvmap) (w : list bytes32) (os : list sp_op) : Prop :=
  match os with
  | [] => True
  | o :: os' =>
      match o with
      | Update _ (_ :: _) => True
      | Update k [] | Delete k => In k (keys m) \/ ~ In k w
      end /\ clean (apply_op m o) (op_writes o ++ w) os'
  end.

(** Calls with their success flags: what the calls that succeeded make of the map, the
    condition on deletions (a failed call counts as a possible write), and all maps passed
    through or attempted. *)
Definition apply_if (m : kvmap) (ob : sp_op * bool) : kvmap := if snd ob then apply_op m (fst ob) else m.
Definition achieved (m : kvmap) (obs : list (sp_op * bool)) : kvmap := fold_left apply_if obs m.
Fixpoint clean_flags (m : kvmap) (w : list bytes32) (obs : list (sp_op * bool)) : Prop :=
  match obs with
  | [] => True
  | ob :: obs' =>
      match fst ob with
      | Update _ (_ :: _) => True
      | Update k [] | Delete k => In k (keys m) \/ ~ In k w
      end /\ clean_flags (apply_if m ob) (op_writes (fst ob) ++ w) obs'
  end.
Fixpoint attempts (m : kvmap) (obs : list (sp_op * bool)) : list kvmap :=
  m :: match obs with [] => [] | ob :: obs' => apply_op m (fst ob) :: attempts (apply_if m ob) obs' end.
Definition is_update (o : sp_op) : Prop := match o with Update _ (_ :: _) => True | _ => False end.

(** What deletes of stale keys do to the map in the code at hand: deleting a key that was
    written at some time removes the entry its path leads to, whatever its key. *)
Definition real_op (m : kvmap) (w : list bytes32) (o : sp_op) : kvmap :=
  match o with
  | Update k (b :: v) => mset k (b :: v) m
  | Update k [] | Delete k =>
      if existsb (b32_eqb k) w
      then match landing 256 0 k m with Some k' => mdel k' m | None => m end
      else m
  end.
Fixpoint real_final (m : kvmap) (w : list bytes32) (os : list sp_op) : kvmap :=
  match os with [] => m | o :: os' => real_final (real_op m w o) (op_writes o ++ w) os' end.
Fixpoint real_maps (m : kvmap) (w : list bytes32) (os : list sp_op) : list kvmap :=
  m :: match os with [] => [] | o :: os' => real_maps (real_op m w o) (op_writes o ++ w) os' end.

(** All maps that can be passed through or attempted if any of the calls may fail. *)
Fixpoint outcomes (m : kvmap) (os : list sp_op) : list kvmap :=
  m :: match os with [] => [] | o :: os' => outcomes m os' ++ outcomes (apply_op m o) os' end.

(** The entries whose keys agree with [k] on the first [d] bits. *)
Fixpoint agree {V} (d : nat) (k : bytes32) (l : list (bytes32 * V)) : list (bytes32 * V) :=
  match d with O => l | S d' => with_bit d' (kbit k d') (agree d' k l) end.
(** The hashes of the nodes on and beside the path of [k], the root excepted: both children of
    every node on the path. *)
Definition near_path (k : bytes32) (l : list (bytes32 * bytes32)) (h : bytes32) : Prop :=
  exists d b, (d < 256)%nat /\ (2 <= length (agree d k l))%nat /\ with_bit d b (agree d k l) <> [] /\
    h = smt (256 - S d) (S d) (with_bit d b (agree d k l)).

(** The maps passed through, the first one included. *)
Fixpoint maps (m : kvmap) (os : list sp_op) : list kvmap :=
  m :: match os with [] => [] | o :: os' => maps (apply_op m o) os' end.

(** The hash function has no collision and no zero digest among the inputs of the roots of
    [ms], no key of [ks] is one of these digests, and no data of [ms] hashes to zero. *)
Definition hash_ok (ks : list bytes32) (ms : list kvmap) : Prop :=
  let inputs := concat (map kv_inputs ms) in
  ~ has_collision H inputs /\
  (forall x, In x inputs -> H x <> zero32) /\
  (forall k x, In k ks -> In x inputs -> H x <> k) /\
  (forall m e, In m ms -> In e m -> H (snd e) <> zero32).
End Spec.
