(** RunsCommon.v -- running a sequence of map operations on [StorageMap]. *)
From Verif Require Import Base Storage SpecCommon.

Section Run.
Context {K V : Type}.
Variable keqb : K -> K -> bool.

Definition smap_op (o : map_op K V) (m : smap) : smap * result Empty_set (map_answer V) :=
  let value (x : smap * result Empty_set (option V)) :=
    (fst x, match snd x with Ok v => Ok (Value v) | Err e => Err e end) in
  match o with
  | OpGet k => value (smap_get keqb k m)
  | OpContains k =>
      let x := smap_contains_key keqb k m in
      (fst x, match snd x with Ok b => Ok (Flag b) | Err e => Err e end)
  | OpInsert k v => value (smap_insert keqb k v m)
  | OpRemove k => value (smap_remove keqb k m)
  end.

Fixpoint smap_run (os : list (map_op K V)) (m : smap) : smap * list (result Empty_set (map_answer V)) :=
  match os with
  | [] => (m, [])
  | o :: os' =>
      let '(m1, a) := smap_op o m in
      let '(m2, xs) := smap_run os' m1 in
      (m2, a :: xs)
  end.
End Run.
