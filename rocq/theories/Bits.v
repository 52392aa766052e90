(** Lemmas about machine integers and their bits (no model content). *)

From Coq Require Import ZArith List Lia Bool.
From Verif Require Import Base.
Import ListNotations.
Open Scope Z_scope.

Lemma pow2_pos n : 0 <= n -> 0 < 2 ^ n.
Proof. intros; apply Z.pow_pos_nonneg; lia. Qed.

Lemma pow2_double w : 0 < w -> 2 ^ w = 2 * 2 ^ (w - 1).
Proof.
  intros. replace w with (Z.succ (w - 1)) at 1 by lia.
  rewrite Z.pow_succ_r; lia.
Qed.

Lemma in_s_b w x : in_sb w x = true <-> in_s w x.
Proof. unfold in_sb, in_s. lia. Qed.

Lemma in_s_nb w x : in_sb w x = false <-> ~ in_s w x.
Proof. unfold in_sb, in_s. lia. Qed.

Lemma wrap_range w x : 0 < w -> in_s w (wrap w x).
Proof.
  intros Hw. unfold in_s, smin, smax, wrap.
  pose proof (pow2_double w Hw). pose proof (pow2_pos (w - 1) ltac:(lia)).
  pose proof (Z.mod_pos_bound (x + 2 ^ (w - 1)) (2 ^ w)). lia.
Qed.

Lemma wrap_id w x : 0 < w -> in_s w x -> wrap w x = x.
Proof.
  intros Hw. unfold in_s, smin, smax, wrap. intros H.
  pose proof (pow2_double w Hw).
  rewrite Z.mod_small; lia.
Qed.

Lemma wrap_mod w x : 0 < w -> (wrap w x) mod 2 ^ w = x mod 2 ^ w.
Proof.
  intros Hw. unfold wrap.
  rewrite Zminus_mod_idemp_l. f_equal. lia.
Qed.

Lemma wrap_eq_mod w x y : 0 < w -> x mod 2 ^ w = y mod 2 ^ w -> wrap w x = wrap w y.
Proof.
  intros Hw H. unfold wrap. f_equal.
  rewrite <- (Zplus_mod_idemp_l x), <- (Zplus_mod_idemp_l y), H. reflexivity.
Qed.

Lemma wrap_wrap w x : 0 < w -> wrap w (wrap w x) = wrap w x.
Proof. intros. apply wrap_id; auto using wrap_range. Qed.

Lemma wrap_bits_low w x i : 0 < w -> 0 <= i < w -> Z.testbit (wrap w x) i = Z.testbit x i.
Proof.
  intros Hw Hi.
  rewrite <- (Z.mod_pow2_bits_low (wrap w x) w i) by lia.
  rewrite wrap_mod by lia. apply Z.mod_pow2_bits_low; lia.
Qed.

Lemma uwrap_bits w x i : 0 <= w -> 0 <= i ->
  Z.testbit (uwrap w x) i = (i <? w) && Z.testbit x i.
Proof.
  intros Hw Hi. unfold uwrap.
  destruct (Z.ltb_spec i w).
  - rewrite Z.mod_pow2_bits_low; auto; lia.
  - rewrite Z.mod_pow2_bits_high; auto; lia.
Qed.

Lemma uwrap_range w x : 0 <= w -> 0 <= uwrap w x < 2 ^ w.
Proof. intros; apply Z.mod_pos_bound, pow2_pos; lia. Qed.

Lemma uwrap_id w x : 0 <= x < 2 ^ w -> uwrap w x = x.
Proof. intros; apply Z.mod_small; lia. Qed.

(** Bits of a small non-negative number vanish above its size. *)
Lemma testbit_above n x i : 0 <= x < 2 ^ n -> n <= i -> Z.testbit x i = false.
Proof.
  intros Hx Hi. destruct (Z.ltb_spec n 0).
  { rewrite (Z.pow_neg_r 2 n) in Hx by lia. lia. }
  rewrite <- (Z.mod_small x (2 ^ n)) by lia.
  apply Z.mod_pow2_bits_high; lia.
Qed.

(** Bits of a signed value above the sign position equal the sign. *)
Lemma signed_bits_high w x i : 0 < w -> in_s w x -> w - 1 <= i ->
  Z.testbit x i = (x <? 0).
Proof.
  intros Hw [H1 H2] Hi. unfold smin, smax in *.
  destruct (Z.ltb_spec x 0).
  - replace x with (Z.lnot (- x - 1)) by (unfold Z.lnot; lia).
    rewrite Z.lnot_spec by lia.
    rewrite (testbit_above (w - 1)); auto; lia.
  - apply (testbit_above (w - 1)); lia.
Qed.

Lemma signed_ext w x y : 0 < w -> in_s w x -> in_s w y ->
  (forall i, 0 <= i < w -> Z.testbit x i = Z.testbit y i) -> x = y.
Proof.
  intros Hw Hx Hy H.
  apply Z.bits_inj'. intros n Hn.
  destruct (Z.ltb_spec n w); [apply H; lia|].
  rewrite (signed_bits_high w x n), (signed_bits_high w y n) by (auto; lia).
  rewrite <- (signed_bits_high w x (w - 1)), <- (signed_bits_high w y (w - 1)) by (auto; lia).
  apply H; lia.
Qed.

Lemma unsigned_ext w x y : 0 <= x < 2 ^ w -> 0 <= y < 2 ^ w ->
  (forall i, 0 <= i < w -> Z.testbit x i = Z.testbit y i) -> x = y.
Proof.
  intros Hx Hy H.
  apply Z.bits_inj'. intros n Hn.
  destruct (Z.ltb_spec n w); [apply H; lia|].
  rewrite (testbit_above w x), (testbit_above w y); auto.
Qed.

Lemma wrap_uwrap w x : 0 < w -> wrap w (uwrap w x) = wrap w x.
Proof.
  intros. apply wrap_eq_mod; auto. unfold uwrap. apply Zmod_mod.
Qed.

Lemma uwrap_wrap w x : 0 < w -> uwrap w (wrap w x) = uwrap w x.
Proof. intros. unfold uwrap. apply wrap_mod; auto. Qed.

Lemma wrap_neg w x : 0 < w -> (wrap w x <? 0) = Z.testbit x (w - 1).
Proof.
  intros. rewrite <- (signed_bits_high w (wrap w x) (w - 1)); auto using wrap_range; try lia.
  apply wrap_bits_low; lia.
Qed.

(** [Z.lor] of numbers with disjoint bits is their sum. *)
Lemma lor_disjoint_add x y : Z.land x y = 0 -> Z.lor x y = x + y.
Proof.
  intros H. rewrite Z.add_nocarry_lxor by auto.
  apply Z.bits_inj'. intros n Hn.
  rewrite Z.lor_spec, Z.lxor_spec.
  assert (Z.testbit (Z.land x y) n = false) as Hb by (rewrite H; apply Z.testbit_0_l).
  rewrite Z.land_spec in Hb. destruct (Z.testbit x n), (Z.testbit y n); simpl in *; congruence.
Qed.

Lemma lor_shiftl_add x y n : 0 <= n -> 0 <= y < 2 ^ n ->
  Z.lor (Z.shiftl x n) y = x * 2 ^ n + y.
Proof.
  intros Hn Hy. rewrite lor_disjoint_add.
  - rewrite Z.shiftl_mul_pow2 by lia. reflexivity.
  - apply Z.bits_inj'. intros i Hi.
    rewrite Z.land_spec, Z.testbit_0_l.
    destruct (Z.ltb_spec i n).
    + rewrite Z.shiftl_spec_low by lia. reflexivity.
    + rewrite (testbit_above n y) by lia. apply andb_false_r.
Qed.

Lemma land_ones_mod x n : 0 <= n -> Z.land x (2 ^ n - 1) = x mod 2 ^ n.
Proof.
  intros. rewrite <- Z.land_ones by lia. rewrite Z.ones_equiv. reflexivity.
Qed.

(** Arithmetic results. *)
Lemma sres_HW w r : 0 < w -> sres HW w r = Ok (wrap w r).
Proof.
  intros Hw. unfold sres. destruct (in_sb w r) eqn:E; auto.
  rewrite wrap_id; auto. apply in_s_b; auto.
Qed.

Lemma sres_ok m w r : in_s w r -> sres m w r = Ok r.
Proof. intros H. unfold sres. apply in_s_b in H. rewrite H. reflexivity. Qed.

Lemma sres_ISO_ub w r : ~ in_s w r -> sres ISO w r = UB SignedOverflow.
Proof. intros H. unfold sres. apply in_s_nb in H. rewrite H. reflexivity. Qed.

Lemma is_int_s x : is_int x <-> in_s 32 x.
Proof. unfold is_int, in_s, int_min, int_max, smin, smax. simpl. lia. Qed.

Lemma is_long_s x : is_long x <-> in_s 64 x.
Proof. unfold is_long, in_s, long_min, long_max, smin, smax. simpl. lia. Qed.

(** List access. *)
Lemma znth_nth {A} (l : list A) i : 0 <= i -> znth l i = nth_error l (Z.to_nat i).
Proof. intros. unfold znth. destruct (Z.ltb_spec i 0); auto; lia. Qed.

Lemma znth_None {A} (l : list A) i : znth l i = None <-> (i < 0 \/ zlen l <= i).
Proof.
  unfold znth, zlen. destruct (Z.ltb_spec i 0).
  - split; auto.
  - rewrite nth_error_None. lia.
Qed.

Lemma znth_Some_lt {A} (l : list A) i a : znth l i = Some a -> 0 <= i < zlen l.
Proof.
  intros H. destruct (Z.ltb_spec i 0).
  { unfold znth in H. destruct (Z.ltb_spec i 0); [discriminate|lia]. }
  destruct (Z.ltb_spec i (zlen l)); [lia|].
  assert (znth l i = None) as E by (apply znth_None; lia). congruence.
Qed.

Lemma znth_ex {A} (l : list A) i : 0 <= i < zlen l -> exists a, znth l i = Some a.
Proof.
  intros H. destruct (znth l i) eqn:E; eauto.
  apply znth_None in E. lia.
Qed.

Lemma upd_length {A} (l : list A) n v : length (upd l n v) = length l.
Proof. revert n; induction l; destruct n; simpl; auto. Qed.

Lemma zupd_len {A} (l : list A) i v : zlen (zupd l i v) = zlen l.
Proof. unfold zlen, zupd. rewrite upd_length. reflexivity. Qed.

Lemma nth_error_upd {A} (l : list A) n k v :
  nth_error (upd l n v) k =
  if Nat.eqb k n then (if Nat.ltb n (length l) then Some v else None) else nth_error l k.
Proof.
  revert n k; induction l as [|h t IH]; intros n k.
  - simpl. destruct (Nat.eqb k n); destruct n, k; reflexivity.
  - destruct n as [|n], k as [|k]; simpl; auto.
    rewrite IH. simpl. reflexivity.
Qed.

Lemma znth_zupd {A} (l : list A) i k v : 0 <= i < zlen l ->
  znth (zupd l i v) k = if k =? i then Some v else znth l k.
Proof.
  intros Hi. unfold znth, zupd, zlen in *.
  destruct (Z.ltb_spec k 0).
  - destruct (Z.eqb_spec k i); auto; lia.
  - rewrite nth_error_upd.
    destruct (Z.eqb_spec k i).
    + subst. rewrite Nat.eqb_refl.
      destruct (Nat.ltb_spec (Z.to_nat i) (length l)); auto; lia.
    + destruct (Nat.eqb_spec (Z.to_nat k) (Z.to_nat i)); auto; lia.
Qed.

Lemma at_ok {A} (l : list A) i : 0 <= i < zlen l -> exists a, znth l i = Some a /\ at_ l i = Ok a.
Proof. intros H. destruct (znth_ex l i H) as [a Ha]. exists a. unfold at_. rewrite Ha. auto. Qed.

Lemma at_throw {A} (l : list A) i : i < 0 \/ zlen l <= i -> at_ l i = Throw OutOfRange.
Proof. intros H. unfold at_. apply znth_None in H. rewrite H. reflexivity. Qed.

Lemma at_set_ok {A} (l : list A) i v : 0 <= i < zlen l -> at_set l i v = Ok (zupd l i v).
Proof. intros H. unfold at_set. destruct (znth_ex l i H) as [a Ha]. rewrite Ha. reflexivity. Qed.

Lemma zlen_app {A} (l1 l2 : list A) : zlen (l1 ++ l2) = zlen l1 + zlen l2.
Proof. unfold zlen. rewrite app_length. lia. Qed.

Lemma zlen_nonneg {A} (l : list A) : 0 <= zlen l.
Proof. unfold zlen; lia. Qed.
