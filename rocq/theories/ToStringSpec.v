(** Specification of the texts of lists and maps. *)

From Coq Require Import ZArith List Bool.
From Verif Require Import Base CppText.
Import ListNotations.
Open Scope Z_scope.

(** the texts with ", " between them *)
Fixpoint joined (ts : list str) : str :=
  match ts with
  | [] => []
  | [t] => t
  | t :: r => t ++ [44; 32] ++ joined r
  end.
(** a text that is written without quotes although it is a String *)
Definition serialized (s : str) : Prop := exists t, s = 91 :: t \/ s = 123 :: t.
(** what stands for a String: itself if serialized, else itself in quotes *)
Definition written (s w : str) : Prop := (serialized s /\ w = s) \/ (~ serialized s /\ w = 34 :: s ++ [34]).
(** no character [c] in the text *)
Definition free (c : Z) (s : str) : Prop := Forall (fun x => x <> c) s.
(** no quotes, and not serialized *)
Definition plain (s : str) : Prop := free 34 s /\ ~ serialized s.
