(** What the calls of java.util.concurrent.ConcurrentMap do, on a map as a function
    from keys to optional values.  Differences that the C++ signatures impose: put returns
    nothing, a missing value is a default-initialised one ([missing]), and putIfAbsent
    returns the value now associated with the key. *)

From Coq Require Import ZArith List Bool.
From Verif Require Import Base ConcMapModel.
Import ListNotations.
Open Scope Z_scope.

Section Java.
Context {K V : Type} (missing : outcome V).
Definition amap := K -> option V.
Definition same (a b : amap) : Prop := forall k, a k = b k.
(** [b] is [a] except that it maps [k] to [o]. *)
Definition changed (a b : amap) (k : K) (o : option V) : Prop := b k = o /\ forall k', k' <> k -> b k' = a k'.
Definition or_missing (o : option V) : outcome V := match o with Some v => Ok v | None => missing end.

Definition java (m : amap) (c : @call K V) (m' : amap) (r : reply) : Prop :=
  match c with
  | Get k => same m m' /\ r = RVal (or_missing (m k))
  | GetOrDefault k d => same m m' /\ r = RVal (Ok (match m k with Some v => v | None => d end))
  | ContainsKey k => same m m' /\ exists b, r = RBool b /\ (b = true <-> m k <> None)
  | ContainsValue v => same m m' /\ exists b, r = RBool b /\ (b = true <-> exists k, m k = Some v)
  | Put k v => changed m m' k (Some v) /\ r = RVoid
  | PutIfAbsent k v => match m k with
                       | None => changed m m' k (Some v) /\ r = RVal (Ok v)
                       | Some w => same m m' /\ r = RVal (Ok w)
                       end
  | Remove k => changed m m' k None /\ r = RVal (or_missing (m k))
  | RemoveIf k v => (m k = Some v /\ changed m m' k None /\ r = RBool true) \/ (m k <> Some v /\ same m m' /\ r = RBool false)
  | Clear => (forall k, m' k = None) /\ r = RVoid
  | Size => same m m' /\ exists keys, NoDup keys /\ (forall k, In k keys <-> m k <> None) /\ r = RSize (zlen keys)
  end.
End Java.
