(** Integer and Long objects as keys of HashMap, with the hash values that
    std::unordered_map works with (/repo/library/Java/Util/HashMap/HashMap.hpp:46).

    HashMapModel.v takes the container by its contract, which presupposes that
    equal keys have equal hash values; here the container is the one of
    libstdc++: every node keeps the hash value computed when it was inserted,
    and a search compares hash values before it compares keys.  Buckets are
    left out: nodes with equal hash values are in the same bucket, and nodes
    with other hash values never match.  Simplifications: allocation failure
    is not modelled; a value that the code leaves at its default is [None]. *)
From Coq Require Import ZArith List Bool.
From Verif Require Import Base CppText IntegerModel LongModel KeysSpec.
Import ListNotations.
Open Scope Z_scope.

Section Keys.
Context {K V : Type}.
(** [==] on keys, toString(), the copy constructor *)
Context (keq : K -> K -> bool) (text : K -> str) (copy : K -> K).
(** std::hash<std::string>: any function of the text *)
Context (h : str -> Z).

(** Integer.hpp:738-740, 747-751; Long.hpp:531-533, 540-546: the hash of the text *)
Definition code (k : K) : Z := h (text k).
(** a node: the hash value kept, the key, the value *)
Definition node := (Z * (K * V))%type.
Definition matches (key : K) (n : node) : bool := (fst n =? code key) && keq (fst (snd n)) key.
(** find(key) *)
Fixpoint find (key : K) (t : list node) : option V :=
  match t with
  | [] => None
  | n :: r => if matches key n then Some (snd (snd n)) else find key r
  end.
(** insert(pair): the node's key is a copy of the pair's key, and its hash value
    is that of the pair's key *)
Definition insert (key : K) (v : V) (t : list node) : list node :=
  match find key t with Some _ => t | None => (code key, (copy key, v)) :: t end.
(** [original[key] = value] when the key is absent: the node's key is a copy of
    [key], its hash value is that of [key] *)
Definition subscript_new (key : K) (v : V) (t : list node) : list node := (code key, (copy key, v)) :: t.
(** erase(key) *)
Definition erase (key : K) (t : list node) : list node := filter (fun n => negb (matches key n)) t.

Definition kstep (t : list node) (o : kop K V) : list node * kanswer V :=
  match o with
  (** HashMap.hpp:402-404: [std::pair<K, V>(key, value)] copies the key first *)
  | KPut k v => (insert (copy k) v t, Nothing)
  (** HashMap.hpp:431-443 *)
  | KPutIfAbsent k v => match find k t with None => (subscript_new k v t, Old None) | Some w => (t, Old (Some w)) end
  (** HashMap.hpp:455-467 *)
  | KRemove k => match find k t with None => (t, Old None) | Some w => (erase k t, Old (Some w)) end
  (** HashMap.hpp:288-290 *)
  | KContains k => (t, Has (match find k t with None => false | Some _ => true end))
  (** HashMap.hpp:372-383 *)
  | KGetOr k d => (t, Val (match find k t with None => d | Some w => w end))
  end.
Fixpoint krun (t : list node) (ops : list (kop K V)) : list (kanswer V) :=
  match ops with
  | [] => []
  | o :: r => let (t', a) := kstep t o in a :: krun t' r
  end.
End Keys.

(** Integer.cpp:115-117 *)
Definition integer_eq (a b : integer) : bool := ival a =? ival b.
(** Integer.cpp:52-55 *)
Definition integer_copy (a : integer) : integer := mk_integer (ival a).
(** Long.cpp:715-720 *)
Definition long_eq (a b : long_obj) : bool := if lval a =? lval b then true else false.
(** Long.cpp:60-63 *)
Definition long_copy (a : long_obj) : long_obj := mk_long (lval a).

Definition integer_map {V} (h : str -> Z) : list (kop integer V) -> list (kanswer V) := krun integer_eq itext integer_copy h [].
Definition long_map {V} (h : str -> Z) : list (kop long_obj V) -> list (kanswer V) := krun long_eq ltext long_copy h [].
