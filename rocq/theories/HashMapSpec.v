(** Specification of a map, independent of the model: a function from keys to
    optional values, and the operations of java.util.Map on it. *)

From Coq Require Import List Bool.
Import ListNotations.

Section MapSpec.
Context {K V : Type} (K_dec : forall a b : K, {a = b} + {a <> b}) (V_dec : forall a b : V, {a = b} + {a <> b}).

Definition amap := K -> option V.
Definition empty : amap := fun _ => None.
Definition set_at (f : amap) (k : K) (o : option V) : amap := fun k' => if K_dec k k' then o else f k'.

Inductive op : Type :=
| OPut (k : K) (v : V)
| OPutIfAbsent (k : K) (v : V)
| ORemove (k : K)
| ORemove2 (k : K) (v : V)
| OReplace (k : K) (v : V)
| OReplace3 (k : K) (old new : V)
| OClear.

(** What the caller gets back: nothing, the previous value ([None] is Java's null), a boolean. *)
Inductive answer : Type := ANone | AOld (o : option V) | ABool (b : bool).

(** java.util.Map *)
Definition java_step (f : amap) (o : op) : amap * answer :=
  match o with
  | OPut k v => (set_at f k (Some v), ANone)
  | OPutIfAbsent k v => (match f k with Some _ => f | None => set_at f k (Some v) end, AOld (f k))
  | ORemove k => (set_at f k None, AOld (f k))
  | ORemove2 k v => match f k with
                    | Some v' => if V_dec v' v then (set_at f k None, ABool true) else (f, ABool false)
                    | None => (f, ABool false)
                    end
  | OReplace k v => (match f k with Some _ => set_at f k (Some v) | None => f end, AOld (f k))
  | OReplace3 k old new => match f k with
                           | Some v' => if V_dec v' old then (set_at f k (Some new), ABool true) else (f, ABool false)
                           | None => (f, ABool false)
                           end
  | OClear => (empty, ANone)
  end.

Fixpoint java_run (f : amap) (ops : list op) : amap * list answer :=
  match ops with
  | [] => (f, [])
  | o :: r => let (f1, a) := java_step f o in let (f2, l) := java_run f1 r in (f2, a :: l)
  end.

(** The answers as the C++ signatures can express them: [put] is void, and
    null becomes the default value [d] of the value type. *)
Inductive reply : Type := RNone | RVal (v : V) | RBool (b : bool).
Definition reply_of (d : V) (o : op) (a : answer) : reply :=
  match o with OPut _ _ => RNone | _ =>
  match a with ANone => RNone | ABool b => RBool b | AOld (Some v) => RVal v | AOld None => RVal d end end.
Fixpoint replies (d : V) (ops : list op) (l : list answer) : list reply :=
  match ops, l with o :: r, a :: l' => reply_of d o a :: replies d r l' | _, _ => [] end.

(** The history in which every [put] is a [putIfAbsent]. *)
Definition first_put_wins1 (o : op) : op := match o with OPut k v => OPutIfAbsent k v | _ => o end.
Definition first_put_wins (ops : list op) : list op := map first_put_wins1 ops.

(** No [put] of the history hits a key that is present at that moment. *)
Fixpoint fresh_puts (f : amap) (ops : list op) : Prop :=
  match ops with
  | [] => True
  | o :: r => (match o with OPut k _ => f k = None | _ => True end) /\ fresh_puts (fst (java_step f o)) r
  end.

(** The number of keys of [f] is [n]. *)
Definition has_size (f : amap) (n : nat) : Prop :=
  exists ks, NoDup ks /\ length ks = n /\ forall k, In k ks <-> f k <> None.
End MapSpec.
Arguments reply : clear implicits.
