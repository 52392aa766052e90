(** Property theorems C12-C14: java.lang.Math on int ([w = 32]) and long
    ([w = 64]). *)

From Coq Require Import ZArith List Lia Bool.
From Verif Require Import Base Bits MathModel MathProofs.
Import ListNotations.
Open Scope Z_scope.

(** ** C12 exact arithmetic *)

(** The contract: the mathematical result when it is representable, otherwise
    ArithmeticException. *)
Definition exact_or_throws (w x : Z) (r : outcome Z) : Prop :=
  (in_s w x -> r = Ok x) /\ (~ in_s w x -> r = Throw ArithmeticException).
Lemma exact_contract w x : exact_or_throws w x (exact w x).
Proof.
  unfold exact. split; intros H.
  - apply in_s_b in H. rewrite H. auto.
  - apply in_s_nb in H. rewrite H. auto.
Qed.

Theorem C12_addExact : forall w a b, w = 32 \/ w = 64 -> in_s w a -> in_s w b ->
  exact_or_throws w (a + b) (addExact HW w a b).
Proof. intros w a b Hw Ha Hb. rewrite addExact_HW by (auto; lia). apply exact_contract. Qed.
Print Assumptions C12_addExact.
Theorem C12_subtractExact : forall w a b, w = 32 \/ w = 64 -> in_s w a -> in_s w b ->
  exact_or_throws w (a - b) (subtractExact HW w a b).
Proof. intros w a b Hw Ha Hb. rewrite subtractExact_HW by (auto; lia). apply exact_contract. Qed.
Print Assumptions C12_subtractExact.
(** ISO: the sum is computed before the test, so a non-representable result
    is undefined rather than an exception. *)
Theorem C12_add_subtract_iso : forall w a b, w = 32 \/ w = 64 -> in_s w a -> in_s w b ->
  addExact ISO w a b = (if in_sb w (a + b) then Ok (a + b) else UB SignedOverflow) /\
  subtractExact ISO w a b = (if in_sb w (a - b) then Ok (a - b) else UB SignedOverflow).
Proof. intros; apply addsub_iso; auto; lia. Qed.
Print Assumptions C12_add_subtract_iso.
Theorem C12_increment_decrement_negate : forall m w a, w = 32 \/ w = 64 -> in_s w a ->
  exact_or_throws w (a + 1) (incrementExact m w a) /\
  exact_or_throws w (a - 1) (decrementExact m w a) /\
  exact_or_throws w (- a) (negateExact m w a).
Proof.
  intros m w a Hw Ha. destruct (incdecneg_ok m w a ltac:(lia) Ha) as (-> & -> & ->).
  repeat split; apply exact_contract.
Qed.
Print Assumptions C12_increment_decrement_negate.
(** multiplyExact(int): right unless the product is below MIN_VALUE, where
    the wrapped product is returned. *)
Theorem C12_multiplyExact_int_partial : forall m a b, is_int a -> is_int b -> int_min <= a * b ->
  exact_or_throws 32 (a * b) (multiplyExact_int m a b).
Proof.
  intros m a b Ha Hb H. rewrite multiplyExact_int_ok by auto. unfold exact_or_throws.
  replace (int_min <=? a * b) with true by lia.
  destruct (Z.ltb_spec int_max (a * b)); split; auto; intros F; exfalso.
  - apply (proj2 (is_int_s _)) in F. unfold is_int in F. lia.
  - apply F. apply (proj1 (is_int_s _)). unfold is_int. lia.
Qed.
Print Assumptions C12_multiplyExact_int_partial.
Theorem C12_multiplyExact_int_refuted : forall m a b, is_int a -> is_int b -> a * b < int_min ->
  multiplyExact_int m a b = Ok (wrap 32 (a * b)) /\ wrap 32 (a * b) <> a * b.
Proof.
  intros m a b Ha Hb H. rewrite multiplyExact_int_ok by auto.
  replace (int_min <=? a * b) with false by lia. replace (int_max <? a * b) with false by (unfold int_max, int_min in *; lia).
  split; auto. pose proof (wrap32_below _ H). lia.
Qed.
Print Assumptions C12_multiplyExact_int_refuted.
(** multiplyExact(long): the overflow test is skipped when bits 31 of |a| and
    |b| are both zero. *)
Theorem C12_multiplyExact_long_exact : forall a b, is_long a -> is_long b ->
  multiplyExact_long HW a b =
    if in_sb 64 (a * b) then Ok (a * b)
    else if ((a =? long_min) && (b =? -1)) || (2 ^ 31 <=? Z.abs a mod 2 ^ 32) || (2 ^ 31 <=? Z.abs b mod 2 ^ 32)
         then Throw ArithmeticException
         else Ok (wrap 64 (a * b)).
Proof. exact multiplyExact_long_HW. Qed.
Print Assumptions C12_multiplyExact_long_exact.
Theorem C12_multiplyExact_long_partial : forall a b, is_long a -> is_long b ->
  in_s 64 (a * b) \/ 2 ^ 31 <= Z.abs a mod 2 ^ 32 \/ 2 ^ 31 <= Z.abs b mod 2 ^ 32 ->
  exact_or_throws 64 (a * b) (multiplyExact_long HW a b).
Proof.
  intros a b Ha Hb H. rewrite multiplyExact_long_HW by auto. unfold low_word_big.
  split; intros F.
  - apply in_s_b in F. rewrite F. auto.
  - destruct H as [H|H]; [contradiction|]. apply in_s_nb in F. rewrite F. 
    replace (_ || _) with true by lia. auto.
Qed.
Print Assumptions C12_multiplyExact_long_partial.
Theorem C12_multiplyExact_long_refuted :
  multiplyExact_long HW (2 ^ 32) (2 ^ 32) = Ok 0 /\
  multiplyExact_long HW (3 * 2 ^ 40) (2 ^ 23) = Ok (2 ^ 63 - 2 ^ 64).
Proof. split; reflexivity. Qed.
Print Assumptions C12_multiplyExact_long_refuted.
Theorem C12_multiplyExact_long_iso : forall a b, is_long a -> is_long b ->
  ~ (a = long_min /\ b = -1) -> ~ in_s 64 (a * b) -> multiplyExact_long ISO a b = UB SignedOverflow.
Proof. exact multiplyExact_long_iso. Qed.
Print Assumptions C12_multiplyExact_long_iso.
(** toIntExact, every long: wrong below MIN_VALUE of int and in the last 2^31
    values of long. *)
Theorem C12_toIntExact_exact : forall m v, is_long v ->
  toIntExact m v =
    if (int_min <=? v) && (v <=? int_max) then Ok v
    else if v <? int_min then Ok (wrap 32 v)
    else if v <? 2 ^ 63 - 2 ^ 31 then Throw ArithmeticException
    else match m with ISO => UB SignedOverflow | HW => Ok (wrap 32 v) end.
Proof. exact toIntExact_ok. Qed.
Print Assumptions C12_toIntExact_exact.
Theorem C12_toIntExact_partial : forall m v, is_long v -> int_min <= v < 2 ^ 63 - 2 ^ 31 ->
  exact_or_throws 32 v (toIntExact m v).
Proof.
  intros m v Hv H. rewrite toIntExact_ok by auto. split; intros F.
  - apply (proj2 (is_int_s _)) in F. unfold is_int in F. replace (_ && _) with true by lia. auto.
  - replace ((int_min <=? v) && (v <=? int_max)) with false.
    + replace (v <? int_min) with false by lia. replace (v <? _) with true by lia. auto.
    + symmetry. apply not_true_is_false. intros C. apply F. apply (proj1 (is_int_s _)). unfold is_int. lia.
Qed.
Print Assumptions C12_toIntExact_partial.
Theorem C12_toIntExact_refuted : forall m,
  toIntExact m (int_min - 1) = Ok int_max /\ toIntExact HW long_max = Ok (-1).
Proof. intros []; vm_compute; auto. Qed.
Print Assumptions C12_toIntExact_refuted.
Example C12_ex : addExact HW 32 int_max 1 = Throw ArithmeticException /\ addExact HW 64 long_max (-1) = Ok (long_max - 1)
  /\ subtractExact HW 32 int_min 1 = Throw ArithmeticException /\ multiplyExact_int HW 65536 65536 = Throw ArithmeticException
  /\ multiplyExact_int HW (-65536) 65537 = Ok (-65536) /\ negateExact ISO 64 long_min = Throw ArithmeticException
  /\ multiplyExact_long HW long_max 2 = Throw ArithmeticException.
Proof. vm_compute; repeat split. Qed.

(** ** C13 floor division *)

Theorem C13_floorDiv_zero : forall m w a, w = 32 \/ w = 64 -> in_s w a ->
  floorDiv m w a 0 = Throw ArithmeticException /\ floorMod m w a 0 = Throw ArithmeticException.
Proof. intros; split; reflexivity. Qed.
Print Assumptions C13_floorDiv_zero.
(** [q] is the floor of a/b. *)
Definition is_floor (a b q : Z) : Prop :=
  if 0 <? b then b * q <= a < b * (q + 1) else b * (q + 1) < a <= b * q.
Theorem C13_floorDiv_partial : forall m w a b, w = 32 \/ w = 64 -> in_s w a -> in_s w b -> b <> 0 ->
  ~ (a = smin w /\ b = -1) -> exists q, floorDiv m w a b = Ok q /\ is_floor a b q.
Proof.
  intros m w a b Hw Ha Hb Nb N. exists (a / b). rewrite floorDiv_ok by (auto; lia).
  replace (b =? 0) with false by lia. replace ((a =? smin w) && (b =? -1)) with false by lia. split; auto.
  unfold is_floor. pose proof (Z.div_mod a b Nb). destruct (Z.ltb_spec 0 b).
  - pose proof (Z.mod_pos_bound a b ltac:(lia)). lia.
  - pose proof (Z.mod_neg_bound a b ltac:(lia)). lia.
Qed.
Print Assumptions C13_floorDiv_partial.
Theorem C13_floorMod_partial : forall w a b, w = 32 \/ w = 64 -> in_s w a -> in_s w b -> b <> 0 ->
  ~ (a = smin w /\ b = -1) -> exists q r, floorDiv HW w a b = Ok q /\ floorMod HW w a b = Ok r /\
    a = b * q + r /\ (0 < b -> 0 <= r < b) /\ (b < 0 -> b < r <= 0).
Proof.
  intros w a b Hw Ha Hb Nb N. exists (a / b), (a mod b). rewrite floorDiv_ok, floorMod_ok by (auto; lia).
  replace (b =? 0) with false by lia. replace ((a =? smin w) && (b =? -1)) with false by lia. split; auto. split; auto.
  split; [apply Z.div_mod; auto|]. split; intros; [apply Z.mod_pos_bound|apply Z.mod_neg_bound]; auto.
Qed.
Print Assumptions C13_floorMod_partial.
(** MIN_VALUE / -1 overflows in the division itself (a trap on x86). *)
Theorem C13_min_by_minus_one_refuted : forall m w, w = 32 \/ w = 64 ->
  floorDiv m w (smin w) (-1) = UB SignedOverflow /\ floorMod m w (smin w) (-1) = UB SignedOverflow.
Proof. intros [] w [-> | ->]; vm_compute; auto. Qed.
Print Assumptions C13_min_by_minus_one_refuted.
(** ISO: floorMod's product can leave the range. *)
Theorem C13_floorMod_iso : forall w a b, w = 32 \/ w = 64 -> in_s w a -> in_s w b -> b <> 0 ->
  ~ (a = smin w /\ b = -1) ->
  floorMod ISO w a b = if in_sb w (a / b * b) then Ok (a mod b) else UB SignedOverflow.
Proof. intros; apply floorMod_iso; auto; lia. Qed.
Print Assumptions C13_floorMod_iso.
Example C13_ex : floorDiv ISO 32 (-7) 2 = Ok (-4) /\ floorMod ISO 32 (-7) 2 = Ok 1 /\ floorDiv ISO 64 7 (-2) = Ok (-4)
  /\ floorMod HW 32 int_min 3 = Ok 1 /\ floorMod ISO 32 int_min 3 = UB SignedOverflow.
Proof. vm_compute; repeat split. Qed.

(** ** C14 min, max, abs *)

Theorem C14_max_min : forall a b,
  (max a b = a \/ max a b = b) /\ a <= max a b /\ b <= max a b /\
  (min a b = a \/ min a b = b) /\ min a b <= a /\ min a b <= b.
Proof. intros a b. rewrite max_ok, min_ok. lia. Qed.
Print Assumptions C14_max_min.
Theorem C14_abs : forall m w a, w = 32 \/ w = 64 -> in_s w a -> a <> smin w ->
  exists r, abs m w a = Ok r /\ 0 <= r /\ (r = a \/ r = - a).
Proof. intros m w a Hw Ha N. exists (Z.abs a). rewrite abs_ok by (auto; lia). split; auto. lia. Qed.
Print Assumptions C14_abs.
Theorem C14_abs_min : forall w, w = 32 \/ w = 64 ->
  abs HW w (smin w) = Ok (smin w) /\ abs ISO w (smin w) = UB SignedOverflow.
Proof. intros w [-> | ->]; vm_compute; auto. Qed.
Print Assumptions C14_abs_min.
Example C14_ex : max 3 (-5) = 3 /\ min long_min 0 = long_min /\ abs ISO 64 (long_min + 1) = Ok long_max.
Proof. vm_compute; repeat split. Qed.
