(** C97: identity of objects, order of enumeration constants. *)

From Coq Require Import ZArith List Lia Bool String.
From Verif Require Import Base Bits CppText TextSpec BitSpec IntegerModel IntegerProofs3 IntegerProps ObjectModel.
Import ListNotations.
Open Scope string_scope.
Open Scope list_scope.
Open Scope Z_scope.

Definition plain (a : Z) : object := {| address := a; class_name := T "C"; own_hash := None |}.

(** equals is an equivalence relation, equal objects have equal hash codes,
    and the operators agree with it: for objects of all classes. *)
Theorem C97_equivalence : forall a b c,
  equals a a = true /\ equals a b = equals b a /\
  (equals a b = true -> equals b c = true -> equals a c = true) /\
  (equals a b = true -> hashCode a = hashCode b) /\
  op_eq a b = equals a b /\ op_ne a b = negb (equals a b).
Proof.
  intros a b c. unfold op_eq, op_ne, equals.
  repeat match goal with |- context [?x =? ?y] => destruct (Z.eqb_spec x y) end; repeat split; intros; try congruence; auto.
Qed.
Print Assumptions C97_equivalence.

(** Objects less than 4 GB apart are equal only if they are the same. *)
Theorem C97_identity_partial : forall a b, own_hash a = None -> own_hash b = None ->
  Z.abs (address a - address b) < 2 ^ 32 -> (equals a b = true <-> address a = address b).
Proof.
  intros a b A B H. unfold equals, hashCode. rewrite A, B. split.
  - destruct (Z.eqb_spec (wrap 32 (address a)) (wrap 32 (address b))) as [E|]; [intros _|discriminate].
    apply (f_equal (fun z => z mod 2 ^ 32)) in E. rewrite !wrap_mod in E by lia.
    pose proof (Z.div_mod (address a) (2 ^ 32) ltac:(lia)). pose proof (Z.div_mod (address b) (2 ^ 32) ltac:(lia)).
    change (2 ^ 32) with 4294967296 in *. lia.
  - intros ->. rewrite Z.eqb_refl. auto.
Qed.
Print Assumptions C97_identity_partial.
(** In general only the lower 32 bits of the address count. *)
Theorem C97_identity_refuted : forall a k, equals (plain a) (plain (a + 2 ^ 32 * k)) = true.
Proof.
  intros a k. unfold equals, hashCode, plain; cbn [own_hash address].
  assert (E : wrap 32 (a + 2 ^ 32 * k) = wrap 32 a).
  { unfold wrap. change (2 ^ (32 - 1)) with 2147483648. change (2 ^ 32) with 4294967296.
    replace (a + 4294967296 * k + 2147483648) with (a + 2147483648 + k * 4294967296) by lia.
    rewrite Z.mod_add by lia. reflexivity. }
  rewrite E, Z.eqb_refl. auto.
Qed.
Print Assumptions C97_identity_refuted.
(** Objects of any classes with the same hash code are equal, such as the
    Integer 65 and the Byte 65 (Integer.cpp and Bytes.cpp return the value). *)
Theorem C97_classes_refuted : forall a b h, own_hash a = Some h -> own_hash b = Some h -> equals a b = true.
Proof. intros a b h A B. unfold equals, hashCode. rewrite A, B, Z.eqb_refl. auto. Qed.
Print Assumptions C97_classes_refuted.

(** The text: name of the class, at sign, hash code in hexadecimal. *)
Theorem C97_text : forall o, is_int (hashCode o) ->
  exists h, object_toString o = Ok (class_name o ++ T "@" ++ h) /\ canonical_unsigned 16 h (hashCode o mod 2 ^ 32).
Proof.
  intros o H. unfold object_toString, toHexString.
  destruct (IntegerProps.C04_toUnsignedString (hashCode o) 16 H) as (s & E & C); [unfold IntegerProofs3.supported; auto|].
  rewrite E. exists s. split; auto.
Qed.
Print Assumptions C97_text.

(** ** Enumeration constants *)
Definition constant (e : enum) : Prop := 0 <= ordinalNumber e <= int_max.

(** compareTo orders constants by position, in both readings of C++. *)
Theorem C97_enum_order : forall m a b, constant a -> constant b ->
  compareTo m a b = Ok (ordinal a - ordinal b) /\
  (enum_equals a b = true <-> compareTo m a b = Ok 0).
Proof.
  intros m a b A B. unfold constant, int_max in *.
  assert (E : compareTo m a b = Ok (ordinal a - ordinal b)).
  { unfold compareTo, ssub, ordinal. apply sres_ok. unfold in_s, smin, smax. cbn. lia. }
  split; auto. rewrite E. unfold enum_equals, ordinal. rewrite Z.eqb_eq. split.
  - intros ->. f_equal. lia.
  - intros Q. injection Q. lia.
Qed.
Print Assumptions C97_enum_order.
Theorem C97_enum_names : forall a, name a = enumName a /\ toString a = name a.
Proof. split; reflexivity. Qed.
Print Assumptions C97_enum_names.
(** Nothing keeps an ordinal from being negative; then the difference can overflow. *)
Theorem C97_enum_order_refuted : forall n, exists a b,
  enumName a = n /\ ordinal a < ordinal b /\ compareTo HW a b = Ok int_max /\ compareTo ISO a b = UB SignedOverflow.
Proof.
  intros n. exists {| enumName := n; ordinalNumber := int_min |}, {| enumName := n; ordinalNumber := 1 |}.
  repeat split.
Qed.
Print Assumptions C97_enum_order_refuted.

Example ex_object : equals (plain 94000000000) (plain 94000000008) = false /\
  object_toString (plain 4096) = Ok (T "C@1000").
Proof. vm_compute. auto. Qed.
Example ex_enum : compareTo ISO {| enumName := T "RED"; ordinalNumber := 0 |} {| enumName := T "BLUE"; ordinalNumber := 2 |} = Ok (-2).
Proof. reflexivity. Qed.
