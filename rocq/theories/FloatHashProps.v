(** C79, continued: the value of Double.hashCode. *)

From Coq Require Import ZArith List Bool Lia.
From Verif Require Import Base Bits Ieee FloatBitsModel.
Import ListNotations.
Open Scope Z_scope.

Lemma pack h x : 0 <= x < 2 ^ 32 -> h * 2 ^ 32 + x = Z.lor (Z.shiftl h 32) x.
Proof.
  intros X. assert (D : Z.land (Z.shiftl h 32) x = 0).
  { apply Z.bits_inj'. intros j J. rewrite Z.land_spec, Z.bits_0, Z.shiftl_spec by lia.
    destruct (Z.ltb_spec j 32); [rewrite (Z.testbit_neg_r h (j - 32)) by lia; reflexivity|]. rewrite <- (Z.mod_small x (2 ^ 32)) by exact X. rewrite Z.mod_pow2_bits_high by lia. apply andb_false_r. }
  rewrite <- Z.lxor_lor by exact D. rewrite <- Z.add_nocarry_lxor by exact D. now rewrite Z.shiftl_mul_pow2 by lia.
Qed.
(** Java's hash code of a double is the exclusive or of the two halves of its bits; the code answers a long whose
    lower half is that and whose upper half is the upper half of the bits *)
Theorem C79_hash_halves : forall m x b, raw_bits m CDouble x = Ok b -> 0 <= b < 2 ^ 64 ->
  double_hashCode m x = Ok (b / 2 ^ 32 * 2 ^ 32 + Z.lxor (b mod 2 ^ 32) (b / 2 ^ 32)).
Proof.
  intros m x b E [B0 B1]. unfold double_hashCode. rewrite E. cbn [bind]. f_equal. set (h := b / 2 ^ 32). set (l := b mod 2 ^ 32).
  assert (H : 0 <= h < 2 ^ 32) by (unfold h; split; [apply Z.div_pos; lia|apply Z.div_lt_upper_bound; lia]).
  assert (L : 0 <= l < 2 ^ 32) by (unfold l; apply Z.mod_pos_bound; lia).
  assert (HL : b = Z.lor (Z.shiftl h 32) l) by (rewrite <- pack by exact L; unfold h, l; pose proof (Z.div_mod b (2 ^ 32)); lia).
  rewrite Z.shiftr_div_pow2 by lia. fold h.
  assert (X : 0 <= Z.lxor l h < 2 ^ 32).
  { assert (X0 : 0 <= Z.lxor l h) by (apply Z.lxor_nonneg; lia). split; [exact X0|]. destruct (Z.eq_dec (Z.lxor l h) 0) as [->|NZ]; [lia|]. apply Z.log2_lt_pow2; [lia|].
    pose proof (Z.log2_lxor l h ltac:(lia) ltac:(lia)). assert (forall v, 0 <= v < 2 ^ 32 -> Z.log2 v < 32) as LV.
    { intros v V. destruct (Z.eq_dec v 0) as [->|]; [reflexivity|]. apply Z.log2_lt_pow2; lia. } pose proof (LV l L). pose proof (LV h H). lia. }
  rewrite (pack h _ X). apply Z.bits_inj'. intros k K. rewrite Z.lxor_spec, Z.lor_spec, HL, Z.lor_spec, !Z.shiftl_spec, Z.lxor_spec by lia. destruct (Z.ltb_spec k 32).
  - rewrite (Z.testbit_neg_r h (k - 32)) by lia. cbn. reflexivity.
  - assert (B : forall v, 0 <= v < 2 ^ 32 -> Z.testbit v k = false). { intros v V. rewrite <- (Z.mod_small v (2 ^ 32)) by exact V. apply Z.mod_pow2_bits_high. lia. }
    rewrite (B l L), (B h H). destruct (Z.testbit h (k - 32)); reflexivity.
Qed.
Print Assumptions C79_hash_halves.
(** 12.375 *)
Example C79_hash_case : raw_bits HW CDouble (Fin false (99 * 2 ^ 1071)) = Ok 4623156123728347136 /\
  double_hashCode HW (Fin false (99 * 2 ^ 1071)) = Ok (4623156123728347136 + 1076412416).
Proof. split; vm_compute; reflexivity. Qed.
