(** Powers modulo a power of two; the invariant of the machine. *)
From Coq Require Import ZArith List Lia Bool Arith Znumtheory Zpow_facts.
From Verif Require Import Base Bits RandomSpec RandomModel RandomProofs RandomSeedModel RandomSeedSpec.
Import ListNotations.
Open Scope Z_scope.
Notation F := 181783497276652981.

Lemma pow_mod4 e : 0 <= e -> (F ^ e) mod 4 = 1.
Proof. intros E. rewrite Zpower_mod by lia. change (F mod 4) with 1. rewrite Z.pow_1_l by lia. reflexivity. Qed.
Lemma pow_mod8 e : 0 <= e -> (F ^ (2 * e + 1)) mod 8 = 5.
Proof.
  intros E. rewrite Z.pow_add_r, Z.pow_mul_r by lia. rewrite Z.mul_mod, (Zpower_mod (F ^ 2)) by lia.
  change ((F ^ 2) mod 8) with 1. rewrite Z.pow_1_l by lia. reflexivity.
Qed.
Lemma odd_rel (n : Z) x : 0 <= n -> x mod 2 = 1 -> rel_prime (2 ^ n) x.
Proof.
  intros N X. apply rel_prime_sym. apply rel_prime_Zpower_r; [lia|]. apply rel_prime_sym. apply prime_rel_prime; [apply prime_2|].
  intros D. apply Z.mod_divide in D; lia.
Qed.
Lemma gauss2 n x y : 0 <= n -> x mod 2 = 1 -> (2 ^ n | x * y) -> (2 ^ n | y).
Proof. intros N X D. apply (Gauss _ x); [exact D|]. now apply odd_rel. Qed.
Lemma order : forall n d, 0 < d -> (2 ^ (Z.of_nat n + 2) | F ^ d - 1) -> (2 ^ Z.of_nat n | d).
Proof.
  induction n as [|n IH]; intros d D H; [apply Z.divide_1_l|].
  destruct (Z.Even_or_Odd d) as [[e ->]|[e ->]].
  - assert (E1 : 2 ^ Z.of_nat (S n) = 2 * 2 ^ Z.of_nat n) by (rewrite Nat2Z.inj_succ; apply Z.pow_succ_r; lia).
    assert (E2 : 2 ^ (Z.of_nat (S n) + 2) = 2 * 2 ^ (Z.of_nat n + 2)) by (rewrite <- Z.pow_succ_r by lia; f_equal; lia).
    assert (E3 : F ^ (2 * e) = F ^ e * F ^ e) by (rewrite <- Z.pow_add_r by lia; f_equal; lia).
    rewrite E2, E3 in H. rewrite E1. apply Z.mul_divide_mono_l. apply IH; [lia|]. assert (P := pow_mod4 e ltac:(lia)).
    set (x := F ^ e) in *. assert (X : x = 4 * (x / 4) + 1) by (rewrite <- P; apply Z.div_mod; lia).
    apply (gauss2 _ (2 * (x / 4) + 1)); [lia|rewrite Z.add_comm, Z.mul_comm, Z_mod_plus_full; reflexivity|].
    apply (Z.mul_divide_cancel_l _ _ 2); [lia|]. replace (2 * ((2 * (x / 4) + 1) * (x - 1))) with (x * x - 1) by nia. exact H.
  - exfalso. assert (P := pow_mod8 e ltac:(lia)). assert (D8 : (8 | F ^ (2 * e + 1) - 1)).
    { apply (Z.divide_trans _ (2 ^ (Z.of_nat (S n) + 2))); [|exact H]. replace (Z.of_nat (S n) + 2) with (Z.of_nat n + 3) by lia. rewrite Z.pow_add_r by lia. apply Z.divide_factor_r. }
    apply Z.mod_divide in D8; [|lia]. set (x := F ^ (2 * e + 1)) in *. assert (X : x = 8 * (x / 8) + 5) by (rewrite <- P; apply Z.div_mod; lia).
    rewrite X in D8. replace (8 * (x / 8) + 5 - 1) with (4 + (x / 8) * 8) in D8 by lia. rewrite Z_mod_plus_full in D8. discriminate.
Qed.
Lemma order_pow : forall n, (2 ^ (Z.of_nat n + 2) | F ^ (2 ^ Z.of_nat n) - 1).
Proof.
  induction n as [|n IH]; [exists 45445874319163245; reflexivity|].
  assert (0 < 2 ^ Z.of_nat n) by (apply Z.pow_pos_nonneg; lia).
  assert (E1 : 2 ^ Z.of_nat (S n) = 2 ^ Z.of_nat n + 2 ^ Z.of_nat n) by (rewrite Nat2Z.inj_succ, Z.pow_succ_r; lia).
  assert (E2 : 2 ^ (Z.of_nat (S n) + 2) = 2 * 2 ^ (Z.of_nat n + 2)) by (rewrite <- Z.pow_succ_r by lia; f_equal; lia).
  rewrite E1, E2, (Z.pow_add_r F) by lia.
  assert (P := pow_mod4 (2 ^ Z.of_nat n) ltac:(lia)). set (x := F ^ 2 ^ Z.of_nat n) in *. assert (X : x = 4 * (x / 4) + 1) by (rewrite <- P; apply Z.div_mod; lia).
  replace (x * x - 1) with ((x - 1) * (2 * (2 * (x / 4) + 1))) by nia. destruct IH as (q & Q). rewrite Q. exists (q * (2 * (x / 4) + 1)). ring.
Qed.

(** FIRST is four times an odd number *)
Notation U := 8682522807148012.
Lemma differ n j d : 0 <= j -> 0 < d -> (2 ^ (Z.of_nat n + 4) | U * F ^ (j + d) - U * F ^ j) -> (2 ^ Z.of_nat n | d).
Proof.
  intros J D H. apply order; [exact D|].
  apply (gauss2 _ (F ^ j)); [lia| |].
  { rewrite Zpower_mod by lia. change (F mod 2) with 1. rewrite Z.pow_1_l by lia. reflexivity. }
  apply (gauss2 _ 2170630701787003); [lia|reflexivity|].
  assert (E1 : 2 ^ (Z.of_nat n + 4) = 2 ^ 2 * 2 ^ (Z.of_nat n + 2)) by (rewrite <- Z.pow_add_r by lia; f_equal; lia).
  assert (E2 : F ^ (j + d) = F ^ j * F ^ d) by (apply Z.pow_add_r; lia). rewrite E1, E2 in H.
  apply (Z.mul_divide_cancel_l _ _ (2 ^ 2)); [discriminate|].
  replace (2 ^ 2 * (2170630701787003 * (F ^ j * (F ^ d - 1)))) with (U * (F ^ j * F ^ d) - U * F ^ j) by (change (2 ^ 2) with 4; ring). exact H.
Qed.
Lemma again n j : 0 <= j -> (2 ^ (Z.of_nat n + 4) | U * F ^ (j + 2 ^ Z.of_nat n) - U * F ^ j).
Proof.
  intros J. assert (0 < 2 ^ Z.of_nat n) by (apply Z.pow_pos_nonneg; lia). rewrite (Z.pow_add_r F) by lia. destruct (order_pow n) as (q & Q).
  replace (U * (F ^ j * F ^ 2 ^ Z.of_nat n) - U * F ^ j) with (U * F ^ j * (F ^ 2 ^ Z.of_nat n - 1)) by ring. rewrite Q.
  exists (2170630701787003 * F ^ j * q). assert (E1 : 2 ^ (Z.of_nat n + 4) = 4 * 2 ^ (Z.of_nat n + 2)) by (change 4 with (2 ^ 2) at 2; rewrite <- Z.pow_add_r by lia; f_equal; lia). rewrite E1. ring.
Qed.

Lemma values_far n j k u v : 0 <= j < k -> Z.of_nat n + 4 <= 64 -> nth_value j u -> nth_value k v -> (2 ^ (Z.of_nat n + 4) | v - u) -> 2 ^ Z.of_nat n <= k - j.
Proof.
  intros J N (_ & A) (_ & B) D.
  assert (P : (2 ^ (Z.of_nat n + 4) | 2 ^ 64)) by (exists (2 ^ (64 - (Z.of_nat n + 4))); rewrite <- Z.pow_add_r by lia; f_equal; lia).
  apply Z.divide_pos_le; [lia|]. apply (differ n j (k - j)); [lia|lia|]. replace (j + (k - j)) with k by lia.
  replace (U * F ^ k - U * F ^ j) with ((v - u) - (v - U * F ^ k) + (u - U * F ^ j)) by ring.
  apply Z.divide_add_r; [apply Z.divide_sub_r|]; [exact D|exact (Z.divide_trans _ _ _ P B)|exact (Z.divide_trans _ _ _ P A)].
Qed.

Lemma seed_mod u v c : seed_from u c = seed_from v c <-> (2 ^ 48 | v - u).
Proof.
  unfold seed_from. rewrite !scramble_ok. unfold scrambled. rewrite <- !Z.land_ones by lia.
  assert (E : Z.land u (Z.ones 48) = Z.land v (Z.ones 48) <-> (2 ^ 48 | v - u)).
  { rewrite !Z.land_ones by lia. split.
    - intros E. apply Z.mod_divide; [discriminate|]. rewrite Zminus_mod, E, Z.sub_diag. reflexivity.
    - intros (q & Q). replace v with (u + q * 2 ^ 48) by lia. now rewrite Z_mod_plus_full. }
  rewrite <- E. split; intros H; apply Z.bits_inj'; intros i I; apply (f_equal (fun z => Z.testbit z i)) in H; revert H; rewrite !Z.land_spec, ?Z.lxor_spec;
    generalize (Z.testbit u i) (Z.testbit v i) (Z.testbit c i) (Z.testbit (Z.ones 48) i) (Z.testbit 25214903917 i); intros [] [] [] [] []; cbn [andb xorb]; congruence.
Qed.

(** Two numbers of 32 bits determine the state. *)
Lemma high_near x y : state_ok x -> state_ok y -> high 32 x = high 32 y -> - 2 ^ 16 < x - y < 2 ^ 16.
Proof.
  unfold state_ok, high. intros X Y. change (48 - 32) with 16. intros E. assert (Q : x / 2 ^ 16 = y / 2 ^ 16).
  { assert (0 <= x / 2 ^ 16 < 2 ^ 32 /\ 0 <= y / 2 ^ 16 < 2 ^ 32) as [X1 Y1].
    { split; (split; [apply Z.div_pos; lia|apply Z.div_lt_upper_bound; [lia|]; change (2 ^ 16 * 2 ^ 32) with (2 ^ 48); lia]). }
    destruct (Z.ltb_spec (x / 2 ^ 16) (2 ^ 31)), (Z.ltb_spec (y / 2 ^ 16) (2 ^ 31)); lia. }
  pose proof (Z.div_mod x (2 ^ 16) ltac:(lia)). pose proof (Z.div_mod y (2 ^ 16) ltac:(lia)). pose proof (Z.mod_pos_bound x (2 ^ 16) ltac:(lia)). pose proof (Z.mod_pos_bound y (2 ^ 16) ltac:(lia)). lia.
Qed.
Lemma lcg_diff x y : exists q, lcg x - lcg y = 25214903917 * (x - y) - q * 2 ^ 48.
Proof.
  unfold lcg. exists ((x * 25214903917 + 11) / 2 ^ 48 - (y * 25214903917 + 11) / 2 ^ 48).
  pose proof (Z.div_mod (x * 25214903917 + 11) (2 ^ 48) ltac:(lia)). pose proof (Z.div_mod (y * 25214903917 + 11) (2 ^ 48) ltac:(lia)). lia.
Qed.
Lemma lcg_inj x y : state_ok x -> state_ok y -> lcg x = lcg y -> x = y.
Proof.
  intros X Y E. destruct (lcg_diff x y) as (q & Q). rewrite E, Z.sub_diag in Q.
  assert (D : (2 ^ 48 | x - y)) by (apply (gauss2 48 25214903917); [lia|reflexivity|]; exists q; lia).
  destruct D as (r & R). unfold state_ok in *. assert (r = 0) by nia. lia.
Qed.
Lemma two_numbers x y : state_ok x -> state_ok y -> high 32 (lcg x) = high 32 (lcg y) -> high 32 (lcg (lcg x)) = high 32 (lcg (lcg y)) -> x = y.
Proof.
  intros X Y E1 E2. apply lcg_inj; [assumption..|]. apply high_near in E1; [|apply lcg_ok..]. apply high_near in E2; [|apply lcg_ok..].
  destruct (lcg_diff (lcg x) (lcg y)) as (q & Q). set (d := lcg x - lcg y) in *. rewrite Q in E2. clear Q. assert (d = 0); [|lia].
  change (2 ^ 16) with 65536 in *. change (2 ^ 48) with 281474976710656 in *. clearbody d. clear - E1 E2.
  assert (QB : -6 <= q <= 6) by lia.
  assert (C : q = -6 \/ q = -5 \/ q = -4 \/ q = -3 \/ q = -2 \/ q = -1 \/ q = 0 \/ q = 1 \/ q = 2 \/ q = 3 \/ q = 4 \/ q = 5 \/ q = 6) by lia.
  repeat destruct C as [C|C]; subst q; lia.
Qed.
