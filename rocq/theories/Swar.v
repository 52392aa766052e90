(** Numbers as lists of base-2^s digits, least significant first, and the
    bitwise operations on them (used for the SWAR bit count). *)

From Coq Require Import ZArith List Lia Bool.
From Verif Require Import Base Bits.
Import ListNotations.
Open Scope Z_scope.

Fixpoint val (s : Z) (ds : list Z) : Z :=
  match ds with [] => 0 | d :: t => d + 2 ^ s * val s t end.
Definition digits_ok (s : Z) (ds : list Z) : Prop := Forall (fun d => 0 <= d < 2 ^ s) ds.

Lemma land_cons s d e x y : 0 <= s -> 0 <= d < 2 ^ s -> 0 <= e < 2 ^ s ->
  Z.land (d + 2 ^ s * x) (e + 2 ^ s * y) = Z.land d e + 2 ^ s * Z.land x y.
Proof.
  intros Hs Hd He.
  assert (L : forall a b, 0 <= a < 2 ^ s -> a + 2 ^ s * b = Z.lor (Z.shiftl b s) a).
  { intros a b Ha. rewrite lor_shiftl_add by auto. lia. }
  assert (B : forall n, s <= n -> Z.testbit d n = false /\ Z.testbit e n = false).
  { intros n Hn. split; apply (testbit_above s); auto. }
  assert (R : 0 <= Z.land d e < 2 ^ s).
  { split; [apply Z.land_nonneg; lia|].
    destruct (Z.eq_dec (Z.land d e) 0) as [->|N]; [apply pow2_pos; lia|].
    assert (0 <= Z.land d e) by (apply Z.land_nonneg; lia).
    apply Z.log2_lt_pow2; [lia|].
    pose proof (Z.log2_land d e). 
    assert (d <> 0) by (intros ->; apply N; reflexivity).
    assert (Z.log2 d < s) by (apply Z.log2_lt_pow2; lia). lia. }
  rewrite !L by auto. apply Z.bits_inj'. intros n Hn.
  rewrite Z.land_spec, !Z.lor_spec, Z.land_spec.
  destruct (Z.lt_ge_cases n s).
  - rewrite !Z.shiftl_spec_low by lia. reflexivity.
  - destruct (B n) as [-> ->]; auto. rewrite !Z.shiftl_spec by lia. rewrite Z.land_spec.
    rewrite !orb_false_r. reflexivity.
Qed.

Fixpoint map2 (f : Z -> Z -> Z) (a b : list Z) : list Z :=
  match a, b with x :: a', y :: b' => f x y :: map2 f a' b' | _, _ => [] end.
Lemma land_val s a : 0 <= s -> forall b, digits_ok s a -> digits_ok s b -> length a = length b ->
  Z.land (val s a) (val s b) = val s (map2 Z.land a b).
Proof.
  intros Hs. induction a as [|x a IH]; intros [|y b] Ha Hb L; try discriminate; auto.
  inversion Ha; inversion Hb; subst. cbn [val map2]. rewrite land_cons by auto.
  rewrite IH; auto.
Qed.
Lemma shiftr_val s d a : 0 <= s -> 0 <= d < 2 ^ s -> Z.shiftr (val s (d :: a)) s = val s a.
Proof.
  intros Hs Hd. rewrite Z.shiftr_div_pow2 by lia. cbn [val].
  rewrite Z.mul_comm, Z.div_add by lia. rewrite Z.div_small by lia. lia.
Qed.
Lemma val_bound s a : 0 <= s -> digits_ok s a -> 0 <= val s a < 2 ^ (s * zlen a).
Proof.
  intros Hs H. induction H as [|d a Hd Ha IH].
  - unfold zlen; simpl. rewrite Z.mul_0_r. simpl. lia.
  - cbn [val]. replace (s * zlen (d :: a)) with (s + s * zlen a) by (unfold zlen; cbn [length]; lia).
    rewrite Z.pow_add_r by (unfold zlen; lia). nia.
Qed.
(** Base-2 digits of a number below 2^n. *)
Definition bits_of (u : Z) (n : nat) : list Z := map (fun i => Z.b2z (Z.testbit u (Z.of_nat i))) (seq 0 n).
Lemma bits_of_S u n : bits_of u (S n) = Z.b2z (Z.odd u) :: bits_of (Z.div2 u) n.
Proof.
  unfold bits_of. cbn [seq map]. rewrite Z.bit0_odd. f_equal.
  rewrite <- seq_shift, map_map. apply map_ext. intros i.
  rewrite Nat2Z.inj_succ, Z.div2_spec, Z.shiftr_spec by lia. f_equal. 
Qed.
Lemma bits_of_val n : forall u, 0 <= u < 2 ^ Z.of_nat n -> val 1 (bits_of u n) = u.
Proof.
  induction n as [|n IH]; intros u Hu.
  - simpl in Hu. cbn. lia.
  - rewrite bits_of_S. cbn [val]. change (2 ^ 1) with 2.
    pose proof (Z.div2_odd u) as D. rewrite Nat2Z.inj_succ, Z.pow_succ_r in Hu by lia.
    rewrite IH; [destruct (Z.odd u); simpl Z.b2z in *; lia|]. destruct (Z.odd u); simpl Z.b2z in *; lia.
Qed.
Lemma bits_of_ok u n : digits_ok 1 (bits_of u n).
Proof.
  apply Forall_forall. intros d Hd. apply in_map_iff in Hd. destruct Hd as (i & <- & _).
  destruct (Z.testbit u (Z.of_nat i)); simpl; lia.
Qed.

(** Masking makes the sign extension irrelevant. *)
Lemma land_uwrap w x k M : 0 < w -> 0 <= k < w -> 0 <= M < 2 ^ (w - k) ->
  Z.land (Z.shiftr x k) M = Z.land (Z.shiftr (uwrap w x) k) M.
Proof.
  intros Hw Hk HM. apply Z.bits_inj'. intros n Hn. rewrite !Z.land_spec, !Z.shiftr_spec by lia.
  destruct (Z.lt_ge_cases n (w - k)).
  - rewrite uwrap_bits by lia. replace (n + k <? w) with true by lia. reflexivity.
  - rewrite (testbit_above (w - k) M) by lia. rewrite !andb_false_r. reflexivity.
Qed.
Lemma land_uwrap0 w x M : 0 < w -> 0 <= M < 2 ^ w -> Z.land x M = Z.land (uwrap w x) M.
Proof.
  intros Hw HM. pose proof (land_uwrap w x 0 M Hw ltac:(lia)) as H.
  rewrite !Z.shiftr_0_r, Z.sub_0_r in H. auto.
Qed.

(** ** Summing neighbouring digits *)

Fixpoint evs (l : list Z) : list Z := match l with a :: _ :: t => a :: evs t | _ => [] end.
Fixpoint ods (l : list Z) : list Z := match l with _ :: b :: t => b :: ods t | _ => [] end.
Fixpoint pairs (l : list Z) : list Z := match l with a :: b :: t => (a + b) :: pairs t | _ => [] end.
Fixpoint alt (M : Z) (n : nat) : list Z := match n with O => [] | S k => M :: 0 :: alt M k end.
Definition sumz (l : list Z) : Z := fold_right Z.add 0 l.

Lemma evs_val s n : 0 <= s -> forall l, length l = (2 * n)%nat -> digits_ok s l ->
  Z.land (val s l) (val s (alt (2 ^ s - 1) n)) = val (2 * s) (evs l) /\
  Z.land (Z.shiftr (val s l) s) (val s (alt (2 ^ s - 1) n)) = val (2 * s) (ods l) /\
  val s l = val (2 * s) (evs l) + 2 ^ s * val (2 * s) (ods l) /\
  val (2 * s) (evs l) + val (2 * s) (ods l) = val (2 * s) (pairs l).
Proof.
  intros Hs. pose proof (pow2_pos s Hs) as P.
  assert (Q : 2 ^ (2 * s) = 2 ^ s * 2 ^ s) by (rewrite <- Z.pow_add_r by lia; f_equal; lia).
  induction n as [|n IH]; intros l L D.
  - destruct l; [|discriminate]. cbn. rewrite Z.shiftr_0_l. repeat split; lia.
  - destruct l as [|a [|b t]]; try discriminate; [cbn in L; lia|].
    inversion D as [|? ? Ha D1]; subst. inversion D1 as [|? ? Hb D2]; subst.
    destruct (IH t) as (A & B & C & E); [cbn in L; lia|auto|].
    assert (M : forall d, 0 <= d < 2 ^ s -> Z.land d (2 ^ s - 1) = d).
    { intros d Hd. rewrite land_ones_mod by lia. apply Z.mod_small; auto. }
    cbn [evs ods pairs alt]. rewrite shiftr_val by auto. cbn [val].
    repeat split.
    + rewrite land_cons by lia. rewrite M by auto.
      replace (val s (b :: t)) with (b + 2 ^ s * val s t) by reflexivity.
      rewrite (land_cons s b 0) by lia. rewrite Z.land_0_r, A. rewrite Q. lia.
    + rewrite land_cons by lia. rewrite M by auto.
      replace (Z.land (val s t) (0 + 2 ^ s * val s (alt (2 ^ s - 1) n)))
        with (2 ^ s * Z.land (Z.shiftr (val s t) s) (val s (alt (2 ^ s - 1) n))).
      * rewrite B, Q. lia.
      * destruct t as [|c t'].
        { cbn [val]. rewrite Z.shiftr_0_l, !Z.land_0_l. lia. }
        inversion D2; subst. rewrite shiftr_val by auto. cbn [val].
        rewrite (land_cons s c 0) by lia. rewrite Z.land_0_r. lia.
    + rewrite C, Q. lia.
    + rewrite <- E. lia.
Qed.
Lemma sumz_pairs n : forall l, length l = (2 * n)%nat -> sumz (pairs l) = sumz l.
Proof.
  induction n as [|n IH]; intros l L; [destruct l; [auto|discriminate]|].
  destruct l as [|a [|b t]]; try discriminate; [cbn in L; lia|].
  cbn [pairs sumz fold_right] in *. fold (sumz t) (sumz (pairs t)). rewrite IH by (cbn in L; lia). lia.
Qed.
Lemma pairs_length n : forall l, length l = (2 * n)%nat -> length (pairs l) = n.
Proof.
  induction n as [|n IH]; intros l L; [destruct l; [auto|discriminate]|].
  destruct l as [|a [|b t]]; try discriminate; [cbn in L; lia|]. cbn [pairs length]. rewrite IH; auto. cbn in L; lia.
Qed.
Lemma pairs_bound k n : forall l, length l = (2 * n)%nat -> Forall (fun d => 0 <= d <= k) l -> Forall (fun d => 0 <= d <= 2 * k) (pairs l).
Proof.
  induction n as [|n IH]; intros l L D; [destruct l; [constructor|discriminate]|].
  destruct l as [|a [|b t]]; try discriminate; [cbn in L; lia|].
  inversion D as [|? ? Ha D1]; subst. inversion D1 as [|? ? Hb D2]; subst.
  cbn [pairs]. constructor; [lia|]. apply IH; auto. cbn in L; lia.
Qed.
(** x + (x >> s) adds to every digit its upper neighbour. *)
Fixpoint nsum (l : list Z) : list Z :=
  match l with [] => [] | a :: t => (a + match t with b :: _ => b | [] => 0 end) :: nsum t end.
Lemma nsum_val s l : 0 <= s -> digits_ok s l -> val s l + Z.shiftr (val s l) s = val s (nsum l).
Proof.
  intros Hs H. induction H as [|a t Ha Ht IH]; [cbn; rewrite Z.shiftr_0_l; reflexivity|].
  rewrite shiftr_val by auto. cbn [nsum val].
  destruct t as [|b t]; [cbn; lia|]. inversion Ht; subst. rewrite shiftr_val in IH by auto.
  cbn [val] in IH |- *. lia.
Qed.
Lemma nsum_bound k l : 0 <= k -> Forall (fun d => 0 <= d <= k) l -> Forall (fun d => 0 <= d <= 2 * k) (nsum l).
Proof.
  intros Hk H. induction H as [|a t Ha Ht IH]; constructor; auto. destruct Ht; lia.
Qed.
Lemma nsum_length l : length (nsum l) = length l.
Proof. induction l; cbn [nsum length]; auto. Qed.
Lemma evs_nsum n : forall l, length l = (2 * n)%nat -> evs (nsum l) = pairs l.
Proof.
  induction n as [|n IH]; intros l L; [destruct l; [auto|discriminate]|].
  destruct l as [|a [|b t]]; try discriminate; [cbn in L; lia|]. cbn [nsum evs pairs]. rewrite IH; auto. cbn in L; lia.
Qed.
