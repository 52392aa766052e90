(** Properties of Java.Lang.Bytes and Java.Lang.Boolean (C62). *)

From Coq Require Import ZArith List Lia Bool String.
From Verif Require Import Base Bits CppText TextSpec TextLemmas StringModel StringSpec StringProofs StringProps IntegerProofs2 BytesModel.
From Verif Require IntegerModel IntegerProofs3 IntegerProps.
Import ListNotations.
Open Scope string_scope.
Open Scope list_scope.
Open Scope Z_scope.

(** A byte value. *)
Definition a_byte (b : Z) : Prop := 0 <= b <= 255.
(** The objects a program can build: the cached text always is the decimal
    numeral of the value. *)
Definition good (a : Bytes) (v : Z) : Prop :=
  a_byte v /\ byteValue a = v /\ toString a = itoa v.

Lemma byte_int b : a_byte b -> is_int b.
Proof. unfold a_byte, is_int, int_min, int_max. lia. Qed.
Lemma to_byte_range x : a_byte (to_byte x).
Proof. unfold to_byte, uwrap, a_byte. pose proof (Z.mod_pos_bound x (2 ^ 8)). lia. Qed.
Lemma to_byte_id x : a_byte x -> to_byte x = x.
Proof. unfold a_byte, to_byte, uwrap. intros. apply Z.mod_small. lia. Qed.
Lemma good_mk b : a_byte b -> good (mk b) b.
Proof. intros H. repeat split; try apply H. Qed.

(** ** Text *)

Lemma forall_byte (P : Z -> bool) : forallb (fun i => P (Z.of_nat i)) (seq 0 256) = true -> forall b, a_byte b -> P b = true.
Proof.
  intros H b [L U]. rewrite forallb_forall in H.
  replace b with (Z.of_nat (Z.to_nat b)) by lia. apply H. apply in_seq. lia.
Qed.
Lemma itoa_small b : a_byte b -> small (itoa b).
Proof.
  intros H. unfold small. apply Z.leb_le. revert b H. apply (forall_byte (fun b => zlen (itoa b) <=? int_max)).
  vm_compute. reflexivity.
Qed.

(** The text of every byte is its canonical decimal numeral, for the object
    and for the static function, and parses back to the same byte. *)
Theorem C62_text_round_trip : forall m b, a_byte b ->
  toString_static m b = Ok (toString (mk b)) /\ canonical_unsigned 10 (toString (mk b)) b /\
  parseBytes (toString (mk b)) 10 = Ok b /\ mk_string (toString (mk b)) 10 = Ok (mk b).
Proof.
  intros m b H. cbn [toString mk originalString].
  assert (C : canonical_unsigned 10 (itoa b) b).
  { unfold itoa. destruct H. destruct (Z.ltb_spec b 0); [lia|]. apply utoa_canonical; lia. }
  assert (P : parseBytes (itoa b) 10 = Ok b).
  { unfold parseBytes. rewrite (IntegerProofs3.parse_accepts 10 (itoa b) b).
    - cbn [bind]. unfold BYTE_MIN, BYTE_MAX. pose proof (to_byte_id b H). destruct H.
      destruct (Z.ltb_spec b 0), (Z.ltb_spec 255 b); try lia. cbn [orb]. congruence.
    - lia.
    - left. apply C.
    - now apply itoa_small.
    - now apply byte_int. }
  split; [|split; [exact C|split; [exact P|unfold mk_string; rewrite P; reflexivity]]].
  assert (E : IntegerModel.toString m b 10 = IntegerModel.toUnsignedString b 10).
  { unfold IntegerModel.toString. destruct H. destruct (Z.ltb_spec b 0); [lia|reflexivity]. }
  unfold toString_static. rewrite E.
  assert (D : match IntegerModel.toUnsignedString b 10 with Ok s => str_eqb s (itoa b) | _ => false end = true).
  { revert b H C P E. intros b H _ _ _. revert b H.
    apply (forall_byte (fun b => match IntegerModel.toUnsignedString b 10 with Ok s => str_eqb s (itoa b) | _ => false end)).
    vm_compute. reflexivity. }
  destruct (IntegerModel.toUnsignedString b 10); try discriminate. now apply str_eqb_eq in D; subst.
Qed.
Print Assumptions C62_text_round_trip.

(** Parsing: numerals of byte values are accepted in every radix up to 32,
    numerals of other ints are rejected. *)
Theorem C62_parse : forall r s v, 2 <= r <= 32 -> signed_numeral r s v -> small s -> is_int v ->
  parseBytes s r = if (0 <=? v) && (v <=? 255) then Ok v else Throw NumberFormatException.
Proof.
  intros r s v R N S I. unfold parseBytes. rewrite (IntegerProofs3.parse_accepts r s v) by auto. cbn [bind].
  unfold BYTE_MIN, BYTE_MAX.
  destruct (Z.ltb_spec v 0), (Z.ltb_spec 255 v), (Z.leb_spec 0 v), (Z.leb_spec v 255); try lia; cbn [orb andb]; try reflexivity.
  rewrite to_byte_id; [reflexivity|split; lia].
Qed.
Print Assumptions C62_parse.
(** Whatever the text, the result is a byte or an exception. *)
Theorem C62_parse_total : forall s r, small s ->
  (exists v, parseBytes s r = Ok v /\ a_byte v) \/ parseBytes s r = Throw NumberFormatException \/
  (s = [45] /\ parseBytes s r = Throw StringIndexOutOfBoundsException).
Proof.
  intros s r S. unfold parseBytes. destruct (IntegerProps.C05_total s r S) as [(v & -> & _)|[->|[E ->]]]; cbn [bind].
  - destruct (_ || _); [auto|left; eexists; split; [reflexivity|apply to_byte_range]].
  - auto.
  - auto.
Qed.
Print Assumptions C62_parse_total.
(** Like Integer.parseInt, it accepts texts that are not numerals, and
    numerals between 2^64 - 2^63 and 2^64 by wrapping. *)
Theorem C62_parse_refuted : parseBytes (T "12abc") 10 = Ok 12 /\ parseBytes (T "-18446744073709551615") 10 = Ok 1.
Proof. split; reflexivity. Qed.
Print Assumptions C62_parse_refuted.
Example C62_text_ex : toString (mk 200) = T "200" /\ parseBytes (T "ff") 16 = Ok 255 /\
  parseBytes (T "256") 10 = Throw NumberFormatException /\ a_byte 200 /\ good (mk 200) 200.
Proof. split; [reflexivity|]. split; [reflexivity|]. split; [reflexivity|]. split; [split; lia|apply good_mk; split; lia]. Qed.

(** ** Arithmetic *)

(** On every pair of objects the ring operations are those of the integers
    modulo 256, quotient and remainder are exact, division by zero raises;
    each result again is an object whose text is the numeral of its value. *)
Theorem C62_arithmetic : forall a b x y, good a x -> good b y ->
  good (add a b) ((x + y) mod 256) /\ good (sub a b) ((x - y) mod 256) /\ good (mul a b) ((x * y) mod 256) /\
  (y <> 0 -> exists q r, div a b = Ok q /\ rem a b = Ok r /\ good q (x / y) /\ good r (x mod y)) /\
  (y = 0 -> div a b = Throw ArithmeticException /\ rem a b = Throw ArithmeticException).
Proof.
  intros a b x y (X & Ea & _) (Y & Eb & _). unfold byteValue in *.
  unfold add, sub, mul, div, rem. rewrite Ea, Eb.
  split; [apply good_mk, to_byte_range|]. split; [apply good_mk, to_byte_range|]. split; [apply good_mk, to_byte_range|].
  split.
  - intros N. destruct (Z.eqb_spec y 0); [congruence|]. unfold a_byte in *.
    rewrite Z.quot_div_nonneg, Z.rem_mod_nonneg by lia.
    do 2 eexists. split; [reflexivity|]. split; [reflexivity|].
    assert (D : a_byte (x / y)). { split; [apply Z.div_pos; lia|]. pose proof (Z.div_le_upper_bound x y 255). nia. }
    assert (M : a_byte (x mod y)). { pose proof (Z.mod_pos_bound x y). split; lia. }
    rewrite !to_byte_id by auto. split; apply good_mk; auto.
  - intros ->. split; reflexivity.
Qed.
Print Assumptions C62_arithmetic.
(** The compound assignments compute the same values; assignment copies. *)
Theorem C62_assignments : forall a b x y, good a x -> good b y ->
  good (add_assign a b) ((x + y) mod 256) /\ good (sub_assign a b) ((x - y) mod 256) /\
  good (mul_assign a b) ((x * y) mod 256) /\ div_assign a b = div a b /\ rem_assign a b = rem a b /\ good (assign a b) y.
Proof.
  intros a b x y A B. pose proof (C62_arithmetic a b x y A B) as (P & Q & R & _).
  repeat split; try apply P; try apply Q; try apply R; try apply B.
  cbn. destruct B as (_ & E & _). unfold byteValue in E. now rewrite E.
Qed.
Print Assumptions C62_assignments.
(** Order and equality are those of the values. *)
Theorem C62_order : forall a b x y, good a x -> good b y ->
  (op_eq a b = true <-> x = y) /\ (op_ne a b = true <-> x <> y) /\ (op_lt a b = true <-> x < y) /\
  (op_gt a b = true <-> x > y) /\ (op_le a b = true <-> x <= y) /\ (op_ge a b = true <-> x >= y) /\
  (compareTo a b < 0 <-> x < y) /\ (compareTo a b = 0 <-> x = y) /\ (compareTo a b > 0 <-> x > y) /\
  compare x y = compareTo a b /\ equals a b = Ok (x =? y) /\ toUnsignedInt x = x.
Proof.
  intros a b x y (X & Ea & _) (Y & Eb & Tb). unfold byteValue, op_eq, op_ne, op_lt, op_gt, op_le, op_ge, compareTo, compare, equals in *.
  rewrite Tb. destruct (C62_text_round_trip HW y Y) as (_ & _ & P & _). cbn [toString mk originalString] in P.
  rewrite P. cbn [bind]. rewrite Ea, Eb.
  rewrite negb_true_iff, !Z.eqb_eq, Z.eqb_neq, !Z.ltb_lt, !Z.leb_le.
  repeat (split; [solve [lia|split; lia|reflexivity]|]).
  unfold toUnsignedInt. change 255 with (Z.ones 8). rewrite Z.land_ones by lia. apply Z.mod_small. unfold a_byte in X. lia.
Qed.
Print Assumptions C62_order.
Example C62_arithmetic_ex : byteValue (add (mk 200) (mk 100)) = 44 /\ byteValue (sub (mk 3) (mk 5)) = 254 /\
  toString (mul (mk 16) (mk 17)) = T "16" /\ div (mk 7) (mk 0) = Throw ArithmeticException /\ rem (mk 7) (mk 4) = Ok (mk 3).
Proof. repeat split; reflexivity. Qed.

(** ** valueOf(byte) *)

(** The first call of a process returns the object of the byte. *)
Theorem C62_valueOf_first_partial : forall b, a_byte b -> valueOf_calls NoCache [b] = Ok [mk b].
Proof.
  intros b H. cbn [valueOf_calls valueOf]. unfold at_.
  assert (E : znth cacheInit b = Some (mk b)).
  { unfold znth, cacheInit. pose proof (to_byte_id b H). destruct H. destruct (Z.ltb_spec b 0); [lia|].
    rewrite nth_error_map.
    rewrite (nth_error_nth' (seq 0 256) 0%nat) by (rewrite seq_length; lia).
    rewrite seq_nth by lia. cbn [option_map]. rewrite Nat.add_0_l, Z2Nat.id by lia. congruence. }
  rewrite E. reflexivity.
Qed.
Print Assumptions C62_valueOf_first_partial.
(** Every later call reads freed memory: no program may call it twice. *)
Theorem C62_valueOf_twice_refuted : forall b b' bs, a_byte b ->
  valueOf_calls NoCache (b :: b' :: bs) = UB UseAfterFree.
Proof.
  intros b b' bs H. pose proof (C62_valueOf_first_partial b H) as E. cbn [valueOf_calls valueOf] in *.
  destruct (at_ cacheInit b); cbn [bind] in *; try discriminate. reflexivity.
Qed.
Print Assumptions C62_valueOf_twice_refuted.
Example C62_valueOf_ex : valueOf_calls NoCache [65; 65] = UB UseAfterFree /\ a_byte 65.
Proof. split; [reflexivity|split; lia]. Qed.

(** ** Boolean *)

(** The case variants of a lower-case word: every letter is that of the word
    or its capital. *)
Definition case_variant (s w : str) : Prop := Forall2 (fun c l => c = l \/ c = l - 32) s w.
Definition ascii (s : str) : Prop := Forall (fun c => 0 < c < 128) s.

Lemma lower_letter c l : 97 <= l <= 122 -> (c_tolower c = l <-> c = l \/ c = l - 32).
Proof.
  intros H. unfold c_tolower. destruct (Z.leb_spec 65 c), (Z.leb_spec c 90); cbn [andb]; lia.
Qed.
Lemma lower_variant w : Forall (fun l => 97 <= l <= 122) w -> forall s, map c_tolower s = w <-> case_variant s w.
Proof.
  induction 1 as [|l w L F IH]; intros [|c s]; cbn [map].
  - split; auto; constructor.
  - split; [discriminate|intros H; inversion H].
  - split; [discriminate|intros H; inversion H].
  - split.
    + intros E. injection E as E1 E2. constructor; [apply lower_letter; auto|now apply IH].
    + intros V. inversion V; subst. f_equal; [apply lower_letter; auto|now apply IH].
Qed.
(** parseBoolean is true exactly for the case variants of "true". *)
Theorem C62_parseBoolean : forall s, ascii s -> (parseBoolean s = true <-> case_variant s (T "true")).
Proof.
  intros s A. unfold parseBoolean.
  assert (N : no_nul s). { eapply Forall_impl; [|exact A]. cbn. intros; lia. }
  rewrite (cstr_id s N), (proj1 (toLower_ok s N)), C40_equals. apply lower_variant.
  vm_compute. repeat constructor; discriminate.
Qed.
Print Assumptions C62_parseBoolean.
(** It reads back the text of every boolean. *)
Theorem C62_boolean_round_trip : forall b, parseBoolean (Boolean_toString b) = b.
Proof. intros [|]; reflexivity. Qed.
Print Assumptions C62_boolean_round_trip.
Theorem C62_boolean_compare : forall a b,
  (Boolean_compare a b = 0 <-> a = b) /\ (Boolean_compare a b > 0 <-> a = true /\ b = false) /\
  (Boolean_compare a b < 0 <-> a = false /\ b = true).
Proof. intros [|] [|]; cbn; repeat split; intros; (discriminate || lia || intuition (auto; discriminate)). Qed.
Print Assumptions C62_boolean_compare.
(** The constructor taking a string, documented to ignore case as well,
    accepts the single text "True". *)
Theorem C62_boolean_constructor_refuted :
  (forall s, ascii s -> (Boolean_of_string s = true <-> s = T "True")) /\
  case_variant (T "true") (T "true") /\ Boolean_of_string (T "true") = false.
Proof.
  split; [|split; [repeat constructor; auto|reflexivity]].
  intros s A. unfold Boolean_of_string. rewrite cstr_id; [apply str_eqb_eq|].
  eapply Forall_impl; [|exact A]. cbn. intros; lia.
Qed.
Print Assumptions C62_boolean_constructor_refuted.
Example C62_boolean_ex : parseBoolean (T "tRuE") = true /\ parseBoolean (T "yes") = false /\ ascii (T "tRuE")
  /\ case_variant (T "tRuE") (T "true").
Proof. split; [reflexivity|]. split; [reflexivity|]. split; [repeat constructor|]. apply C62_parseBoolean; [repeat constructor|reflexivity]. Qed.
