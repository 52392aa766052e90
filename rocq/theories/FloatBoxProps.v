(** C121: Double and Float objects show their number, and compound assignments. *)
From Coq Require Import ZArith List Bool Lia String.
From Verif Require Import Base CppText Ieee FloatBitsSpec FloatBitsModel FloatBitsProofs FloatBitsProofs2 FloatBitsProofs3 FloatBitsProofs4 FloatBitsProofs5 FloatBitsProofs6 FloatBitsProps TextSpec KeysSpec KeysModel FloatBoxModel.
Import ListNotations.
Open Scope string_scope. Open Scope list_scope. Open Scope Z_scope.

Section Props.
Variables (P : printf) (O : Type) (arith : O -> fl -> fl -> fl).

(** The branch that adds a minus sign is never taken: no number is both equal
    to zero and below zero. *)
Lemma double_text_f15 x : double_text P x = f15 P x.
Proof. unfold double_text, feq, flt. destruct (fcmp x zero) as [[]|]; reflexivity. Qed.

(** The number an object should have after a history: assignments set it, a
    compound assignment applies the operation. *)
Fixpoint expected (x : fl) (l : list (change O)) : fl :=
  match l with
  | [] => x
  | Assign y :: r => expected y r
  | Compound o y :: r => expected (arith o x y) r
  end.
(** The number of the last plain assignment. *)
Fixpoint last_assigned (x : fl) (l : list (change O)) : fl :=
  match l with
  | [] => x
  | Assign y :: r => last_assigned y r
  | Compound _ _ :: r => last_assigned x r
  end.
Definition plain (s : change O) : Prop := match s with Assign _ => True | Compound _ _ => False end.

(** Whatever the history, the text of a Double constructed from a number is
    the "%.15f" text of its number. *)
Theorem C121_double_text : forall x l, let b := steps O (double_step P O arith) (double_of P x) l in btext b = f15 P (bval b).
Proof.
  intros x l. cbv zeta. assert (H : btext (double_of P x) = f15 P (bval (double_of P x))) by apply double_text_f15. revert H. generalize (double_of P x) as b.
  induction l as [|[y|o y] l IH]; intros b H; cbn [steps double_step fst]; auto. apply IH. apply double_text_f15.
Qed.
(** A copy shows the same, even of an object made by Double(). *)
Theorem C121_double_copy : forall b, bval (double_copy P b) = bval b /\ btext (double_copy P b) = f15 P (bval b).
Proof. intros b. split; [reflexivity|apply double_text_f15]. Qed.
(** The number after a history is the one last assigned: compound assignments
    do not change the object. *)
Theorem C121_value_exact : forall x l, bval (steps O (double_step P O arith) (double_of P x) l) = last_assigned x l /\ bval (steps O (float_step P O arith) (float_of P x) l) = last_assigned x l.
Proof.
  intros x l. change x with (bval (double_of P x)) at 2. change x with (bval (float_of P x)) at 4. generalize (double_of P x) (float_of P x). induction l as [|[y|o y] l IH]; intros b b'; cbn [steps double_step float_step fst last_assigned]; auto.
  apply (IH (mkB y (double_text P y)) (mkB y (f6 P y))).
Qed.
(** So the expected number results from histories of plain assignments. *)
Theorem C121_value_partial : forall x l, Forall plain l ->
  bval (steps O (double_step P O arith) (double_of P x) l) = expected x l /\ bval (steps O (float_step P O arith) (float_of P x) l) = expected x l.
Proof.
  intros x l F. destruct (C121_value_exact x l) as (-> & ->). assert (E : last_assigned x l = expected x l); [|auto]. revert x. induction F as [|[y|o y] l H F IH]; intros x; cbn [last_assigned expected]; auto. contradiction.
Qed.
(** A Float shows the "%g" text of its number if it was never assigned to. *)
Theorem C121_float_text_partial : forall x l, Forall (fun s => ~ plain s) l -> let b := steps O (float_step P O arith) (float_of P x) l in btext b = g_ P (bval b).
Proof. intros x l F. cbv zeta. induction F as [|[y|o y] l H F IH]; cbn [steps float_step fst]; [reflexivity| |exact IH]. exfalso. apply H. exact I. Qed.
(** A copy of any Float shows that text again; so does Float(). *)
Theorem C121_float_copy : forall b, bval (float_copy P b) = bval b /\ btext (float_copy P b) = btext (float_of P (bval b)) /\
  (bval b = zero -> float_copy P b = float_default P).
Proof. intros [x t]. repeat split. cbn [bval]. intros ->. reflexivity. Qed.
(** After an assignment it shows the "%f" text, so two equal objects show
    different texts whenever the two formats differ. *)
Theorem C121_float_assign_refuted : forall x y l, Forall (fun s => ~ plain s) l -> g_ P y <> f6 P y ->
  let b := steps O (float_step P O arith) (float_of P x) (Assign y :: l) in bval b = bval (float_of P y) /\ btext b <> btext (float_of P y).
Proof.
  intros x y l F N. cbv zeta. cbn [steps float_step fst]. assert (E : forall b, steps O (float_step P O arith) b l = b).
  { clear -F. induction F as [|[z|o z] l H F IH]; intros b; cbn [steps float_step fst]; [reflexivity| |apply IH]. exfalso. apply H. exact I. }
  rewrite E. cbn [bval btext float_of]. split; [reflexivity|congruence].
Qed.
(** So a HashMap does not find a Float that was assigned to, not even by the
    object it was put with: put() stores a copy, which shows the other text,
    and keys are hashed by their texts (Float.hpp:587-589, 596-600; the container of
    C120). This holds however [==] is implemented. *)
Theorem C121_float_key_refuted : forall keq (h : str -> Z) x y, h (g_ P y) <> h (f6 P y) ->
  let a := steps O (float_step P O arith) (float_of P x) [Assign y] in
  krun keq btext (float_copy P) h [] [KPut a true; KContains a] = [Nothing; Has false].
Proof.
  intros keq h x y N. cbv zeta. cbn [steps float_step fst krun kstep insert find]. unfold matches, code, float_copy. cbn [fst snd btext bval].
  destruct (Z.eqb_spec (h (g_ P y)) (h (f6 P y))) as [E|_]; [contradiction|]. reflexivity.
Qed.
(** Nor does it find a key put as Double() by Double() (Double.hpp:550-552, 559-563). *)
Theorem C121_double_key_refuted : forall keq (h : str -> Z), h (f15 P zero) <> h (g_ P zero) ->
  krun keq btext (double_copy P) h [] [KPut (double_default P) true; KContains (double_default P)] = [Nothing; Has false].
Proof.
  intros keq h N. cbn [krun kstep insert find]. unfold matches, code, double_copy. cbn [fst snd btext bval double_default]. rewrite !double_text_f15.
  destruct (Z.eqb_spec (h (f15 P zero)) (h (g_ P zero))) as [E|_]; [contradiction|]. reflexivity.
Qed.
(** Double() equals Double(0) and shows another text (with printf: 0 and
    0.000000000000000). *)
Theorem C121_double_default_refuted : forall m, g_ P zero <> f15 P zero ->
  equals m CDouble (bval (double_default P)) (bval (double_of P zero)) = Ok true /\ btext (double_default P) <> btext (double_of P zero).
Proof.
  intros m N. split.
  - unfold equals. cbn [bval double_default double_of]. unfold zero. rewrite (raw_zero CDouble CDouble_ok m false). reflexivity.
  - cbn [btext double_default double_of]. rewrite double_text_f15. exact N.
Qed.
(** Objects that compare equal need not show the same text at all: 1.0 == 1.5. *)
Theorem C121_equal_text_refuted : forall m, let x := Fin false (one F64) in let y := Fin false (one F64 + one F64 / 2) in f15 P x <> f15 P y ->
  equals m CDouble (bval (double_of P x)) (bval (double_of P y)) = Ok true /\ btext (double_of P x) <> btext (double_of P y).
Proof.
  intros m x y N. split.
  - unfold equals. cbn [bval double_of]. destruct (C77_half_refuted m CDouble (or_introl eq_refl)) as (E & r & R & _). change (cfmt CDouble) with F64 in *. unfold x, y. rewrite E, R. cbn [bind]. rewrite Z.eqb_refl. reflexivity.
  - cbn [btext double_of]. rewrite !double_text_f15. exact N.
Qed.
End Props.

(** x += y leaves x: 1 += 1 is 1 and not 2. *)
Theorem C121_compound_refuted : forall P, let plus (_ : unit) := add F64 in let u := Fin false (one F64) in
  bval (steps unit (double_step P unit plus) (double_of P u) [Compound tt u]) = u /\ expected unit plus u [Compound tt u] = Fin false (2 * one F64) /\ Fin false (2 * one F64) <> u.
Proof. intros P. cbv zeta. split; [reflexivity|]. split; [vm_compute; reflexivity|]. vm_compute. discriminate. Qed.

Print Assumptions C121_double_text. Print Assumptions C121_double_copy. Print Assumptions C121_value_exact.
Print Assumptions C121_value_partial. Print Assumptions C121_float_text_partial. Print Assumptions C121_float_assign_refuted. Print Assumptions C121_float_copy.
Print Assumptions C121_double_default_refuted. Print Assumptions C121_equal_text_refuted. Print Assumptions C121_compound_refuted. Print Assumptions C121_float_key_refuted. Print Assumptions C121_double_key_refuted.

(** Formats that tell the cases apart, as those of printf do. *)
Example C121_ex : let P := mkP (fun x => match x with Fin _ 0 => T "0" | _ => T "0.5" end) (fun x => match x with Fin _ 0 => T "0.000000000000000" | Fin _ v => if v =? one F64 then T "1.000000000000000" else T "1.500000000000000" | _ => T "inf" end) (fun _ => T "0.500000") in
  g_ P zero <> f15 P zero /\ f15 P (Fin false (one F64)) <> f15 P (Fin false (one F64 + one F64 / 2)) /\
  let half := Fin false (one F32 / 2) in g_ P half <> f6 P half /\
  btext (steps unit (float_step P unit (fun _ => add F32)) (float_of P zero) [Assign half; Compound tt half]) = T "0.500000".
Proof. vm_compute. repeat split; discriminate. Qed.
