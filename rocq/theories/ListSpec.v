(** Specification of java.util.List / Vector on mathematical lists,
    independent of the models. *)

From Coq Require Import ZArith List Bool.
From Verif Require Import Base.
Import ListNotations.
Open Scope Z_scope.

Section ListSpec.
Context {E : Type} (E_dec : forall a b : E, {a = b} + {a <> b}) (dv : E).

Definition eqE (a b : E) : bool := if E_dec a b then true else false.
Definition memb (x : E) (l : list E) : bool := existsb (eqE x) l.

(** [l] with [xs] inserted before position [i]; without position [i]; without
    positions [i .. j-1]; with [x] at position [i]. *)
Definition insert_at (i : Z) (xs l : list E) : list E := firstn (Z.to_nat i) l ++ xs ++ skipn (Z.to_nat i) l.
Definition cut (i j : Z) (l : list E) : list E := firstn (Z.to_nat i) l ++ skipn (Z.to_nat j) l.
Definition delete_at (i : Z) (l : list E) : list E := cut i (i + 1) l.
Definition replace_at (i : Z) (x : E) (l : list E) : list E := firstn (Z.to_nat i) l ++ x :: skipn (Z.to_nat (i + 1)) l.
Definition resize (n : Z) (l : list E) : list E := firstn (Z.to_nat n) l ++ repeat dv (Z.to_nat n - length l).

(** [i] is the first / last position of [x] in [l] among those satisfying
    [P], or -1 when there is none. *)
Definition first_pos (P : Z -> Prop) (x : E) (l : list E) (i : Z) : Prop :=
  (znth l i = Some x /\ P i /\ forall j, j < i -> P j -> znth l j <> Some x) \/ (i = -1 /\ forall j, P j -> znth l j <> Some x).
Definition last_pos (P : Z -> Prop) (x : E) (l : list E) (i : Z) : Prop :=
  (znth l i = Some x /\ P i /\ forall j, i < j -> P j -> znth l j <> Some x) \/ (i = -1 /\ forall j, P j -> znth l j <> Some x).

(** Calls and their answers; [Bad] is an exception (the list is unchanged). *)
Inductive lop : Type :=
| LAdd (x : E) | LAddAt (i : Z) (x : E) | LAddAll (xs : list E) | LAddAllAt (i : Z) (xs : list E)
| LGet (i : Z) | LSet (i : Z) (x : E) | LRemoveAt (i : Z) | LRemove (x : E) | LRemoveRange (i j : Z)
| LIndexOf (x : E) | LIndexOfFrom (x : E) (i : Z) | LLastIndexOf (x : E) | LLastIndexOfFrom (x : E) (i : Z)
| LContains (x : E) | LContainsAll (xs : list E) | LRemoveAll (xs : list E) | LRetainAll (xs : list E)
| LSetSize (n : Z) | LClear | LSize | LIsEmpty | LFirst | LLast.
Inductive lans : Type := Unit | Bool (b : bool) | Elem (x : E) | Int (i : Z) | Bad.

Definition valid (l : list E) (i : Z) : Prop := 0 <= i < zlen l.
Definition slot (l : list E) (i : Z) : Prop := 0 <= i <= zlen l.

(** [lstep l o l' a]: java.util.Vector turns [l] into [l'] and answers [a]. *)
Definition lstep (l : list E) (o : lop) (l' : list E) (a : lans) : Prop :=
  let check (ok : Prop) (good : Prop) := (ok /\ good) \/ (~ ok /\ l' = l /\ a = Bad) in
  match o with
  | LAdd x => l' = l ++ [x] /\ a = Bool true
  | LAddAt i x => check (slot l i) (l' = insert_at i [x] l /\ a = Unit)
  | LAddAll xs => l' = l ++ xs /\ a = Bool (negb (zlen xs =? 0))
  | LAddAllAt i xs => check (slot l i) (l' = insert_at i xs l /\ a = Bool (negb (zlen xs =? 0)))
  | LGet i => check (valid l i) (l' = l /\ exists x, znth l i = Some x /\ a = Elem x)
  | LSet i x => check (valid l i) (l' = replace_at i x l /\ exists y, znth l i = Some y /\ a = Elem y)
  | LRemoveAt i => check (valid l i) (l' = delete_at i l /\ exists y, znth l i = Some y /\ a = Elem y)
  | LRemove x => exists i, first_pos (valid l) x l i /\ l' = (if i =? -1 then l else delete_at i l) /\ a = Bool (negb (i =? -1))
  | LRemoveRange i j => check (0 <= i <= j /\ j <= zlen l) (l' = cut i j l /\ a = Unit)
  | LIndexOf x => l' = l /\ exists i, first_pos (valid l) x l i /\ a = Int i
  | LIndexOfFrom x from => check (0 <= from) (l' = l /\ exists i, first_pos (fun p => valid l p /\ from <= p) x l i /\ a = Int i)
  | LLastIndexOf x => l' = l /\ exists i, last_pos (valid l) x l i /\ a = Int i
  | LLastIndexOfFrom x from => check (from < zlen l) (l' = l /\ exists i, last_pos (fun p => valid l p /\ p <= from) x l i /\ a = Int i)
  | LContains x => l' = l /\ a = Bool (memb x l)
  | LContainsAll xs => l' = l /\ a = Bool (forallb (fun x => memb x l) xs)
  | LRemoveAll xs => l' = filter (fun x => negb (memb x xs)) l /\ a = Bool (existsb (fun x => memb x xs) l)
  | LRetainAll xs => l' = filter (fun x => memb x xs) l /\ a = Bool (existsb (fun x => negb (memb x xs)) l)
  | LSetSize n => check (0 <= n) (l' = resize n l /\ a = Unit)
  | LClear => l' = [] /\ a = Unit
  | LSize => l' = l /\ a = Int (zlen l)
  | LIsEmpty => l' = l /\ a = Bool (zlen l =? 0)
  | LFirst => check (l <> []) (l' = l /\ exists x, znth l 0 = Some x /\ a = Elem x)
  | LLast => check (l <> []) (l' = l /\ exists x, znth l (zlen l - 1) = Some x /\ a = Elem x)
  end.

(** A whole history. *)
Inductive lrun : list E -> list lop -> list E -> list lans -> Prop :=
| lrun_nil l : lrun l [] l []
| lrun_cons l o l1 a ops l2 as_ : lstep l o l1 a -> lrun l1 ops l2 as_ -> lrun l (o :: ops) l2 (a :: as_).
End ListSpec.
Arguments lop : clear implicits.
Arguments lans : clear implicits.
