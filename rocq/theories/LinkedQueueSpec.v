(** Java's ConcurrentLinkedQueue, for calls that do not overlap: a list, oldest
    first. *)

From Coq Require Import ZArith List Permutation.
From Verif Require Import Base LinkedQueueModel.
Import ListNotations.
Open Scope Z_scope.

Section Spec.
Context {T : Type}.
Inductive janswer : Type := JBool (b : bool) | JInt (z : Z) | JValue (v : T) | JNull | JVoid | JThrow.
Inductive java : list T -> call T -> list T -> janswer -> Prop :=
| j_add l v : java l (Add v) (l ++ [v]) (JBool true)
| j_offer l v : java l (Offer v) (l ++ [v]) (JBool true)
| j_poll l v : java (v :: l) Poll l (JValue v)
| j_poll_null : java [] Poll [] JNull
| j_peek l v : java (v :: l) Peek (v :: l) (JValue v)
| j_peek_null : java [] Peek [] JNull
| j_element l v : java (v :: l) Element (v :: l) (JValue v)
| j_element_throws : java [] Element [] JThrow
| j_remove l v : java (v :: l) Remove l (JValue v)
| j_remove_throws : java [] Remove [] JThrow
| j_clear l : java l Clear [] JVoid
| j_contains l v b : (b = true <-> In v l) -> java l (Contains v) l (JBool b)
| j_is_empty l b : (b = true <-> l = []) -> java l IsEmpty l (JBool b)
| j_size l : java l Size l (JInt (Z.min (Z.of_nat (length l)) int_max))
| j_remove_object l1 v l2 : ~ In v l1 -> java (l1 ++ v :: l2) (RemoveObject v) (l1 ++ l2) (JBool true)
| j_remove_none l v : ~ In v l -> java l (RemoveObject v) l (JBool false)
| j_remove_all l x l' b : (forall v, In v l' <-> In v l /\ ~ In v x) -> (b = true <-> exists v, In v l /\ In v x) -> java l (RemoveAll x) l' (JBool b).
Definition agrees (r : answer T) (a : janswer) : Prop :=
  match r, a with RBool b, JBool b' => b = b' | RInt z, JInt z' => z = z' | RValue v, JValue v' => v = v' | RVoid, JVoid => True | _, _ => False end.

(** The queue of one thread holds the list [l]. *)
Definition holds (t : nat) (m : mem T) (l : list T) : Prop :=
  items m t = l /\ Z.of_nat (length l) < 2 ^ 64 /\ (prods m = [t] \/ (prods m = [] /\ l = [])).
(** The contract of a call, for a program with one thread. *)
Definition contract (default : option T) (c : call T) (fits : list T -> Prop) : Prop :=
  forall t m l, holds t m l -> fits l ->
    exists l' a, java l c l' a /\
      match exec default Enough t m c with
      | Ok (m', r) => agrees r a /\ (Z.of_nat (length l') < 2 ^ 64 -> holds t m' l')
      | Throw NoSuchElementException => a = JThrow
      | _ => False
      end.
Definition anything (l : list T) : Prop := True.

(** Many threads: each has a Java queue of its own; a poll takes the oldest
    element of one of them, or finds them all empty. *)
Definition same_but (t : nat) (f f' : nat -> list T) : Prop := forall u, u <> t -> f' u = f u.
Definition all_empty (f : nat -> list T) : Prop := forall u, f u = [].
(** The number of elements. *)
Definition total (f : nat -> list T) (n : Z) : Prop := exists ts, NoDup ts /\ (forall u, f u <> [] -> In u ts) /\ n = Z.of_nat (length (concat (map f ts))).
Inductive does : (nat -> list T) -> nat * alloc * call T -> answer T -> (nat -> list T) -> Prop :=
| d_add f t a v f' : f' t = f t ++ [v] -> same_but t f f' -> does f (t, a, Add v) (RBool true) f'
| d_lost f t a v f' : a <> Enough -> (forall u, f' u = f u) -> does f (t, a, Add v) (RBool true) f'
| d_poll f t a u v f' : f u = v :: f' u -> same_but u f f' -> does f (t, a, Poll) (RValue v) f'
| d_none f t a d f' : all_empty f -> (forall u, f' u = f u) -> does f (t, a, Poll) (RValue d) f'
| d_is_empty f t a b f' : (b = true <-> all_empty f) -> (forall u, f' u = f u) -> does f (t, a, IsEmpty) (RBool b) f'
| d_size f t a n f' : total f n -> (forall u, f' u = f u) -> does f (t, a, Size) (RInt (wrap 32 n)) f'
| d_other f t a c r f' : match c with Add _ | Poll | IsEmpty | Size => False | _ => True end -> (forall u, f' u = f u) -> does f (t, a, c) r f'.
Inductive follows : (nat -> list T) -> list (nat * alloc * call T) -> list (answer T) -> (nat -> list T) -> Prop :=
| f_nil f f' : (forall u, f' u = f u) -> follows f [] [] f'
| f_cons f x r f1 l rs f2 : does f x r f1 -> follows f1 l rs f2 -> follows f (x :: l) (r :: rs) f2.
End Spec.
