(** Specification of C120: a map from numbers to values, and what calls of
    HashMap answer on it.  put() keeps the first value of a key (that
    deviation from Java is the subject of C29). *)
From Coq Require Import ZArith List.
Import ListNotations.
Open Scope Z_scope.

Inductive kop (K V : Type) : Type :=
| KPut (k : K) (v : V) | KPutIfAbsent (k : K) (v : V) | KRemove (k : K) | KContains (k : K) | KGetOr (k : K) (d : V).
(** [Old None]: the default value of the value type *)
Inductive kanswer (V : Type) : Type := Nothing | Old (o : option V) | Has (b : bool) | Val (v : V).
Arguments KPut {K V}. Arguments KPutIfAbsent {K V}. Arguments KRemove {K V}. Arguments KContains {K V}. Arguments KGetOr {K V}.
Arguments Nothing {V}. Arguments Old {V}. Arguments Has {V}. Arguments Val {V}.

Definition key_of {K V} (o : kop K V) : K := match o with KPut k _ | KPutIfAbsent k _ | KRemove k | KContains k | KGetOr k _ => k end.

Section Spec.
Context {V : Type}.
Definition nmap := Z -> option V.
Definition none : nmap := fun _ => None.
Definition change (m : nmap) (z : Z) (o : option V) : nmap := fun y => if y =? z then o else m y.
Definition answer_of {K} (number : K -> Z) (m : nmap) (o : kop K V) : nmap * kanswer V :=
  match o with
  | KPut k v => (match m (number k) with Some _ => m | None => change m (number k) (Some v) end, Nothing)
  | KPutIfAbsent k v => (match m (number k) with Some _ => m | None => change m (number k) (Some v) end, Old (m (number k)))
  | KRemove k => (change m (number k) None, Old (m (number k)))
  | KContains k => (m, Has (match m (number k) with Some _ => true | None => false end))
  | KGetOr k d => (m, Val (match m (number k) with Some v => v | None => d end))
  end.
Fixpoint answers {K} (number : K -> Z) (m : nmap) (ops : list (kop K V)) : list (kanswer V) :=
  match ops with
  | [] => []
  | o :: r => let (m', a) := answer_of number m o in a :: answers number m' r
  end.
End Spec.
