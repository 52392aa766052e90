(** Proofs about Integer: bit permutations, unsigned arithmetic, operators. *)

From Coq Require Import ZArith List Lia Bool.
From Verif Require Import Base Bits CppText TextSpec TextLemmas BitSpec BitLemmas
  StringModel StringSpec StringProofs IntegerModel IntegerProofs.
Import ListNotations.
Open Scope Z_scope.

(** ** Generic facts about permutations of bits *)

Lemma permutes_fun w f x r r' : 0 < w -> permutes w f x r -> permutes w f x r' -> r = r'.
Proof.
  intros Hw [A B] [A' B']. apply (signed_ext w); auto. intros i Hi. rewrite B, B' by lia. auto.
Qed.
Lemma permutes_comp w f g x y z : permutes w f x y -> permutes w g y z ->
  (forall i, 0 <= i < w -> 0 <= g i < w) -> permutes w (fun i => f (g i)) x z.
Proof. intros [A B] [A' B'] G. split; auto. intros i Hi. rewrite B' by auto. apply B, G, Hi. Qed.
Lemma permutes_inverse w f g x y z : 0 < w -> in_s w x -> permutes w f x y -> permutes w g y z ->
  (forall i, 0 <= i < w -> 0 <= g i < w) -> (forall i, 0 <= i < w -> f (g i) = i) -> z = x.
Proof.
  intros Hw Hx P Q G I. apply (permutes_fun w (fun i => i) x); auto.
  - destruct (permutes_comp _ _ _ _ _ _ P Q G) as [A B]. split; auto.
    intros i Hi. rewrite B, I by lia. auto.
  - split; auto.
Qed.

(** ** reverse *)

Lemma u32_bits x i : 0 <= i -> Z.testbit (u32 x) i = (i <? 32) && Z.testbit x i.
Proof. intros. apply uwrap_bits; lia. Qed.
Lemma to_int_bits x i : 0 <= i < 32 -> Z.testbit (to_int x) i = Z.testbit x i.
Proof. intros. apply wrap_bits_low; lia. Qed.

Lemma shl_bits x s i : 0 <= s < 32 -> 0 <= i < 32 ->
  Z.testbit (u32 (wrap 32 (Z.shiftl x s))) i = Z.testbit x (i - s).
Proof.
  intros Hs Hi. rewrite u32_bits by lia. replace (i <? 32) with true by lia. cbn [andb].
  rewrite wrap_bits_low by lia. rewrite Z.shiftl_spec by lia. auto.
Qed.

Lemma swap_step_bits mask s x : 0 < s < 32 ->
  exists y, swap_step HW mask s x = Ok y /\ in_s 32 y /\
  forall i, 0 <= i < 32 -> Z.testbit y i =
    (Z.testbit x (i - s) && Z.testbit mask (i - s)) || ((i + s <? 32) && Z.testbit x (i + s) && Z.testbit mask i).
Proof.
  intros Hs. unfold swap_step, sshl. cbn [bind]. eexists; split; [reflexivity|]. split.
  - apply wrap_range; lia.
  - intros i Hi. rewrite to_int_bits, Z.lor_spec by lia. rewrite (Z.mod_small s) by lia.
    rewrite shl_bits by lia. rewrite !Z.land_spec, Z.shiftr_spec, u32_bits by lia. reflexivity.
Qed.

Ltac bitcase H x := rewrite H by lia; cbn [Z.sub Z.add Z.opp Z.ltb Z.testbit].

(** The three swap steps move bit [lxor i s] to bit [i]. *)
Lemma swap_perm mask s x : (mask, s) = (0x55555555, 1) \/ (mask, s) = (0x33333333, 2) \/ (mask, s) = (0x0f0f0f0f, 4) ->
  exists y, swap_step HW mask s x = Ok y /\ permutes 32 (fun i => Z.lxor i s) x y.
Proof.
  intros H.
  assert (Hs : 0 < s < 32) by (destruct H as [H|[H|H]]; inversion H; lia).
  destruct (swap_step_bits mask s x Hs) as (y & E & R & B). exists y. split; auto. split; auto.
  destruct H as [H|[H|H]]; inversion H; subst mask s; clear H;
  each_position 32;
  match goal with |- Z.testbit y ?i = _ => rewrite (B i) by lia end;
  match goal with |- (_ && ?a) || (?b && _ && ?c) = _ =>
     let a' := eval vm_compute in a in change a with a';
     let b' := eval vm_compute in b in change b with b';
     let c' := eval vm_compute in c in change c with c' end;
  cbv beta; rewrite ?andb_true_r, ?andb_false_r, ?orb_false_r; cbn [andb orb];
  rewrite ?orb_false_r; reflexivity.
Qed.

Lemma byterev_bits x a b : u32 a = u32 (wrap 32 (Z.shiftl x 24)) ->
  u32 b = u32 (wrap 32 (Z.shiftl (Z.land x 0xff00) 8)) ->
  permutes 32 (byte_mirror 32) x
   (to_int (Z.lor (Z.lor (Z.lor (u32 a) (u32 b)) (Z.land (Z.shiftr (u32 x) 8) 0xff00)) (Z.shiftr (u32 x) 24))).
Proof.
  intros -> ->. split; [apply wrap_range; lia|].
  assert (B : forall i, 0 <= i < 32 ->
    Z.testbit (to_int (Z.lor (Z.lor (Z.lor (u32 (wrap 32 (Z.shiftl x 24))) (u32 (wrap 32 (Z.shiftl (Z.land x 0xff00) 8))))
       (Z.land (Z.shiftr (u32 x) 8) 0xff00)) (Z.shiftr (u32 x) 24))) i =
    Z.testbit x (i - 24) || (Z.testbit x (i - 8) && Z.testbit 0xff00 (i - 8))
     || ((i + 8 <? 32) && Z.testbit x (i + 8) && Z.testbit 0xff00 i)
     || ((i + 24 <? 32) && Z.testbit x (i + 24))).
  { intros i Hi. rewrite to_int_bits, !Z.lor_spec by lia. rewrite !shl_bits by lia.
    rewrite !Z.land_spec, !Z.shiftr_spec, !u32_bits by lia. reflexivity. }
  revert B. generalize (to_int (Z.lor (Z.lor (Z.lor (u32 (wrap 32 (Z.shiftl x 24))) (u32 (wrap 32 (Z.shiftl (Z.land x 0xff00) 8))))
       (Z.land (Z.shiftr (u32 x) 8) 0xff00)) (Z.shiftr (u32 x) 24))).
  intros y B. each_position 32;
  match goal with |- Z.testbit y ?i = _ => rewrite (B i) by lia end;
  match goal with |- _ || (_ && ?a) || (?b && _ && ?c) || (?d && _) = _ =>
     let a' := eval vm_compute in a in change a with a';
     let b' := eval vm_compute in b in change b with b';
     let c' := eval vm_compute in c in change c with c';
     let d' := eval vm_compute in d in change d with d' end;
  match goal with |- Z.testbit x ?j || _ || _ || _ = _ =>
     let j' := eval vm_compute in j in change j with j' end;
  rewrite ?andb_true_r, ?andb_false_r; cbn [andb orb];
  rewrite ?orb_false_r, ?Z.testbit_neg_r by lia; cbn [orb]; reflexivity.
Qed.

Lemma reverse_ok x : is_int x -> exists r, reverse HW x = Ok r /\ permutes 32 (mirror 32) x r.
Proof.
  intros Hx. unfold reverse.
  destruct (swap_perm 0x55555555 1 x) as (x1 & E1 & P1); [auto|]. rewrite E1. cbn [bind].
  destruct (swap_perm 0x33333333 2 x1) as (x2 & E2 & P2); [auto|]. rewrite E2. cbn [bind].
  destruct (swap_perm 0x0f0f0f0f 4 x2) as (x3 & E3 & P3); [auto|]. rewrite E3. cbn [bind].
  unfold sshl. cbn [bind]. eexists; split; [reflexivity|].
  change (24 mod 32) with 24. change (8 mod 32) with 8.
  pose proof (byterev_bits x3 _ _ eq_refl eq_refl) as [R B]. split; [exact R|].
  intros i Hi. rewrite B by auto. revert i Hi.
  destruct P1 as [_ P1]. destruct P2 as [_ P2]. destruct P3 as [_ P3].
  each_position 32;
  (match goal with |- Z.testbit x3 ?i = _ => let i' := eval vm_compute in i in change i with i'; rewrite (P3 i') by lia end);
  (match goal with |- Z.testbit x2 ?i = _ => let i' := eval vm_compute in i in change i with i'; rewrite (P2 i') by lia end);
  (match goal with |- Z.testbit x1 ?i = _ => let i' := eval vm_compute in i in change i with i'; rewrite (P1 i') by lia end);
  reflexivity.
Qed.

Lemma reverseBytes_ok x : is_int x -> exists r, reverseBytes HW x = Ok r /\ permutes 32 (byte_mirror 32) x r.
Proof.
  intros Hx. apply (proj1 (is_int_s _)) in Hx. unfold reverseBytes, sshl. cbn [bind]. change (24 mod 32) with 24. change (8 mod 32) with 8.
  eexists; split; [reflexivity|]. split; [apply wrap_range; lia|].
  set (y := to_int _).
  assert (B : forall i, 0 <= i < 32 -> Z.testbit y i =
    ((i + 24 <? 32) && Z.testbit x (i + 24)) || (Z.testbit x (i + 8) && Z.testbit 0xFF00 i)
    || (Z.testbit x (i - 8) && Z.testbit 0xFF0000 i) || Z.testbit x (i - 24)).
  { intros i Hi. unfold y. rewrite to_int_bits, !Z.lor_spec by lia. rewrite !shl_bits by lia.
    rewrite !Z.land_spec, !Z.shiftr_spec, !u32_bits, wrap_bits_low, Z.shiftl_spec by lia. reflexivity. }
  clearbody y. each_position 32;
  match goal with |- Z.testbit y ?i = _ => rewrite (B i) by lia end;
  match goal with |- (?d && _) || (_ && ?a) || (_ && ?c) || _ = _ =>
     let a' := eval vm_compute in a in change a with a';
     let c' := eval vm_compute in c in change c with c';
     let d' := eval vm_compute in d in change d with d' end;
  match goal with |- _ || _ || _ || Z.testbit x ?j = _ =>
     let j' := eval vm_compute in j in change j with j' end;
  rewrite ?andb_true_r, ?andb_false_r; cbn [andb orb];
  rewrite ?orb_false_r, ?Z.testbit_neg_r by lia; cbn [orb]; rewrite ?orb_false_r; reflexivity.
Qed.

Lemma mirror_range i : 0 <= i < 32 -> 0 <= mirror 32 i < 32.
Proof. unfold mirror; lia. Qed.
Lemma byte_mirror_range i : 0 <= i < 32 -> 0 <= byte_mirror 32 i < 32 /\ byte_mirror 32 (byte_mirror 32 i) = i.
Proof. revert i. each_position 32; vm_compute; (split; [split|]); congruence. Qed.

Lemma reverse_involutive x : is_int x ->
  exists r, reverse HW x = Ok r /\ reverse HW r = Ok x.
Proof.
  intros Hx. destruct (reverse_ok x Hx) as (r & E & P). exists r. split; auto.
  destruct (reverse_ok r) as (r' & E' & P'); [apply (proj2 (is_int_s _)); destruct P; auto|].
  rewrite E'. f_equal. apply (proj1 (is_int_s _)) in Hx. eapply permutes_inverse; eauto; try lia.
  - apply mirror_range.
  - intros; unfold mirror; lia.
Qed.
Lemma reverseBytes_involutive x : is_int x ->
  exists r, reverseBytes HW x = Ok r /\ reverseBytes HW r = Ok x.
Proof.
  intros Hx. destruct (reverseBytes_ok x Hx) as (r & E & P). exists r. split; auto.
  destruct (reverseBytes_ok r) as (r' & E' & P'); [apply (proj2 (is_int_s _)); destruct P; auto|].
  rewrite E'. f_equal. apply (proj1 (is_int_s _)) in Hx. eapply permutes_inverse; eauto; try lia;
  intros; apply byte_mirror_range; auto.
Qed.

(** ** Rotations *)

Lemma neg_mod32 d : wrap 32 (- d) mod 32 = (- d) mod 32.
Proof.
  unfold wrap. rewrite <- (Zminus_mod_idemp_l _ _ 32).
  change (2 ^ 32) with (32 * 2 ^ 27).
  rewrite (Z.rem_mul_r _ 32 (2 ^ 27)) by lia.
  rewrite <- Zplus_mod_idemp_r, (Z.mul_comm 32), Z.mod_mul, Z.add_0_r, Zmod_mod by lia.
  rewrite Zminus_mod_idemp_l. f_equal. lia.
Qed.

Lemma rotateLeft_ok x d : is_int x -> exists r, rotateLeft HW x d = Ok r /\ permutes 32 (rotl 32 d) x r.
Proof.
  intros Hx. unfold rotateLeft, sshl, sneg, ushr. rewrite sres_HW by lia. cbn [bind].
  eexists; split; [reflexivity|]. split; [apply wrap_range; lia|].
  intros i Hi. rewrite neg_mod32. rewrite to_int_bits, Z.lor_spec by lia.
  pose proof (Z.mod_pos_bound d 32 ltac:(lia)). pose proof (Z.mod_pos_bound (-d) 32 ltac:(lia)).
  rewrite shl_bits, Z.shiftr_spec, u32_bits by lia. unfold rotl.
  rewrite <- Zminus_mod_idemp_r.
  destruct (Z.eq_dec (d mod 32) 0) as [E|E].
  - rewrite Z.mod_opp_l_z by lia. rewrite E, Z.sub_0_r, Z.add_0_r, Z.mod_small by lia.
    replace (i <? 32) with true by lia. cbn [andb]. apply orb_diag.
  - rewrite Z.mod_opp_l_nz by lia. destruct (Z.lt_ge_cases i (d mod 32)).
    + rewrite Z.testbit_neg_r by lia. replace (i + (32 - d mod 32) <? 32) with true by lia. cbn [orb andb].
      f_equal. rewrite <- (Z.mod_add (i - d mod 32) 1 32) by lia. rewrite (Z.mod_small (i - d mod 32 + 1 * 32)); lia.
    + replace (i + (32 - d mod 32) <? 32) with false by lia. cbn [andb]. rewrite orb_false_r.
      f_equal. rewrite (Z.mod_small (i - _)); lia.
Qed.

Lemma rotateRight_ok x d : is_int x -> exists r, rotateRight HW x d = Ok r /\ permutes 32 (rotr 32 d) x r.
Proof.
  intros Hx. unfold rotateRight, sshl, sneg, ushr. rewrite sres_HW by lia. cbn [bind].
  eexists; split; [reflexivity|]. split; [apply wrap_range; lia|].
  intros i Hi. rewrite neg_mod32. rewrite to_int_bits, Z.lor_spec by lia.
  pose proof (Z.mod_pos_bound d 32 ltac:(lia)). pose proof (Z.mod_pos_bound (-d) 32 ltac:(lia)).
  rewrite shl_bits, Z.shiftr_spec, u32_bits by lia. unfold rotr.
  rewrite <- Zplus_mod_idemp_r.
  destruct (Z.eq_dec (d mod 32) 0) as [E|E].
  - rewrite Z.mod_opp_l_z by lia. rewrite E, Z.sub_0_r, Z.add_0_r, Z.mod_small by lia.
    replace (i <? 32) with true by lia. cbn [andb]. apply orb_diag.
  - rewrite Z.mod_opp_l_nz by lia. destruct (Z.lt_ge_cases (i + d mod 32) 32).
    + rewrite (Z.testbit_neg_r x (i - _)) by lia. replace (i + d mod 32 <? 32) with true by lia. cbn [orb andb].
      rewrite orb_false_r. f_equal. rewrite (Z.mod_small (i + _)); lia.
    + replace (i + d mod 32 <? 32) with false by lia. cbn [andb orb].
      f_equal. rewrite <- (Z.mod_add (i + d mod 32) (-1) 32) by lia. rewrite (Z.mod_small (i + d mod 32 + -1 * 32)); lia.
Qed.

Lemma rotate_inverse x d : is_int x ->
  (exists r, rotateLeft HW x d = Ok r /\ rotateRight HW r d = Ok x) /\
  (exists r, rotateRight HW x d = Ok r /\ rotateLeft HW r d = Ok x).
Proof.
  intros Hx. pose proof Hx as Hs. apply (proj1 (is_int_s _)) in Hs. split.
  - destruct (rotateLeft_ok x d Hx) as (r & E & P). exists r. split; auto.
    destruct (rotateRight_ok r d) as (r' & E' & P'); [apply (proj2 (is_int_s _)); destruct P; auto|].
    rewrite E'. f_equal. eapply permutes_inverse; eauto; try lia; unfold rotl, rotr; intros i Hi.
    + apply Z.mod_pos_bound; lia.
    + rewrite Zminus_mod_idemp_l. replace (i + d - d) with i by lia. apply Z.mod_small; lia.
  - destruct (rotateRight_ok x d Hx) as (r & E & P). exists r. split; auto.
    destruct (rotateLeft_ok r d) as (r' & E' & P'); [apply (proj2 (is_int_s _)); destruct P; auto|].
    rewrite E'. f_equal. eapply permutes_inverse; eauto; try lia; unfold rotl, rotr; intros i Hi.
    + apply Z.mod_pos_bound; lia.
    + rewrite Zplus_mod_idemp_l. replace (i - d + d) with i by lia. apply Z.mod_small; lia.
Qed.

(** In the ISO reading every rotation by a non-zero distance is undefined. *)
Lemma rotate_iso x d : d <> 0 ->
  (exists u, rotateLeft ISO x d = UB u) /\ (exists u, rotateRight ISO x d = UB u).
Proof.
  intros Hd. unfold rotateLeft, rotateRight, sshl, ushr, sneg, sres.
  split.
  - destruct ((0 <=? d) && (d <? 32) && (0 <=? x) && (Z.shiftl x d <? 2 ^ 32)) eqn:E; cbn [bind]; eauto.
    destruct (in_sb 32 (- d)); cbn [bind]; eauto.
    replace ((0 <=? - d) && (- d <? 32)) with false by lia. cbn [bind]. eauto.
  - destruct ((0 <=? d) && (d <? 32)) eqn:E; cbn [bind]; eauto.
    destruct (in_sb 32 (- d)); cbn [bind]; eauto.
    replace ((0 <=? - d) && (- d <? 32)) with false by lia. cbn [andb bind]. eauto.
Qed.

(** ** Unsigned arithmetic *)

Lemma compare_spec a b : compare a b = match a ?= b with Lt => -1 | Eq => 0 | Gt => 1 end.
Proof. unfold compare. destruct (Z.compare_spec a b), (Z.ltb_spec a b), (Z.ltb_spec b a); lia. Qed.

Lemma flip_sign x : is_int x -> wrap 32 (x + MIN_VALUE) = unsigned 32 x - 2 ^ 31.
Proof.
  intros Hx. unfold wrap, unsigned, MIN_VALUE, int_min. change (2 ^ (32 - 1)) with (2 ^ 31).
  f_equal. f_equal. change (2 ^ 31) with 2147483648. lia.
Qed.
Lemma compareUnsigned_ok a b : is_int a -> is_int b ->
  compareUnsigned HW a b = Ok (match unsigned 32 a ?= unsigned 32 b with Lt => -1 | Eq => 0 | Gt => 1 end).
Proof.
  intros Ha Hb. unfold compareUnsigned, sadd. rewrite !sres_HW by lia. cbn [bind].
  rewrite !flip_sign by auto. rewrite compare_spec. f_equal.
  destruct (Z.compare_spec (unsigned 32 a - 2 ^ 31) (unsigned 32 b - 2 ^ 31)),
     (Z.compare_spec (unsigned 32 a) (unsigned 32 b)); lia.
Qed.
Lemma compareUnsigned_iso a b : is_int a -> is_int b ->
  compareUnsigned ISO a b = if (a <? 0) || (b <? 0) then UB SignedOverflow else compareUnsigned HW a b.
Proof.
  intros Ha Hb. unfold is_int, int_min, int_max in *. unfold compareUnsigned, sadd, MIN_VALUE, int_min.
  assert (I : forall c, 0 <= c <= 2147483647 -> in_s 32 (c + -2147483648)).
  { intros. apply (proj1 (is_int_s _)). unfold is_int, int_min, int_max. lia. }
  assert (J : forall c, c < 0 -> ~ in_s 32 (c + -2147483648)).
  { intros c Hc Hi. apply (proj2 (is_int_s _)) in Hi. unfold is_int, int_min, int_max in Hi. lia. }
  destruct (Z.ltb_spec a 0); cbn [orb].
  - rewrite sres_ISO_ub; auto.
  - rewrite !(sres_ok _ _ (a + _)) by (apply I; lia). cbn [bind].
    destruct (Z.ltb_spec b 0).
    + rewrite sres_ISO_ub; auto.
    + rewrite !(sres_ok _ _ (b + _)) by (apply I; lia). reflexivity.
Qed.

Lemma unsigned_bounds x : is_int x -> 0 <= unsigned 32 x < 2 ^ 32.
Proof. intros. apply Z.mod_pos_bound. lia. Qed.
Lemma unsigned_0 x : is_int x -> unsigned 32 x = 0 <-> x = 0.
Proof. intros H. apply (proj1 (is_int_s _)) in H. apply uwrap_0_iff; auto; lia. Qed.

Lemma divideUnsigned_ok a b : is_int a -> is_int b ->
  (b = 0 -> divideUnsigned a b = Throw ArithmeticException /\ remainderUnsigned a b = Throw ArithmeticException) /\
  (b <> 0 -> exists q r, divideUnsigned a b = Ok q /\ remainderUnsigned a b = Ok r /\ is_int q /\ is_int r /\
     unsigned 32 q = unsigned 32 a / unsigned 32 b /\ unsigned 32 r = unsigned 32 a mod unsigned 32 b).
Proof.
  intros Ha Hb. unfold divideUnsigned, remainderUnsigned. split.
  - intros ->. auto.
  - intros Nb. replace (b =? 0) with false by lia. rewrite !toUnsignedLong_uwrap.
    change (uwrap 32 a) with (unsigned 32 a). change (uwrap 32 b) with (unsigned 32 b).
    pose proof (unsigned_bounds a Ha) as Ba. pose proof (unsigned_bounds b Hb) as Bb.
    pose proof (unsigned_0 b Hb) as Zb.
    set (A := unsigned 32 a) in *. set (B := unsigned 32 b) in *.
    unfold sdiv, srem. replace (B =? 0) with false by lia.
    rewrite Z.quot_div_nonneg, Z.rem_mod_nonneg by lia.
    assert (0 <= A / B <= A). { split; [apply Z.div_pos; lia|]. apply Z.div_le_upper_bound; nia. }
    pose proof (Z.mod_pos_bound A B ltac:(lia)).
    assert (in_sb 64 (A / B) = true) as ->.
    { apply in_s_b. apply (proj1 (is_long_s _)). unfold is_long, long_min, long_max. lia. }
    cbn [bind]. do 2 eexists. split; [reflexivity|]. split; [reflexivity|].
    split; [apply (proj2 (is_int_s _)), wrap_range; lia|]. split; [apply (proj2 (is_int_s _)), wrap_range; lia|].
    unfold to_int. change (unsigned 32 (wrap 32 (A / B))) with (uwrap 32 (wrap 32 (A / B))).
    change (unsigned 32 (wrap 32 (A mod B))) with (uwrap 32 (wrap 32 (A mod B))).
    rewrite !uwrap_wrap by lia. rewrite !uwrap_id by lia. auto.
Qed.

(** ** Operators *)

Definition int_math (o : iop) (a b : Z) : Z :=
  match o with
  | IAdd => a + b | ISub => a - b | IMul => a * b | IDiv => Z.quot a b | IMod => Z.rem a b
  end.

Lemma rem_int a b : is_int a -> b <> 0 -> is_int (Z.rem a b).
Proof.
  intros Ha Hb. unfold is_int, int_min, int_max in *.
  pose proof (Z.rem_bound_abs a b Hb).
  destruct (Z.le_ge_cases 0 a).
  - pose proof (Z.rem_nonneg a b Hb H0). pose proof (Z.rem_le a (Z.abs b)).
    rewrite Z.rem_abs_r in H2 by lia. lia.
  - pose proof (Z.rem_nonpos a b Hb H0). 
    pose proof (Z.rem_le (- a) (Z.abs b)). rewrite Z.rem_abs_r, Z.rem_opp_l in H2 by lia. lia.
Qed.

Lemma int_op_exact m o a b : is_int a -> is_int b -> is_int (int_math o a b) ->
  (b <> 0 \/ (o <> IDiv /\ o <> IMod)) -> ~ (o = IMod /\ a = int_min /\ b = -1) ->
  int_op m o a b = Ok (int_math o a b).
Proof.
  intros Ha Hb Hr Hz Hx. destruct o; cbn [int_op int_math] in *.
  - apply sres_ok. apply (proj1 (is_int_s _)); auto.
  - apply sres_ok. apply (proj1 (is_int_s _)); auto.
  - apply sres_ok. apply (proj1 (is_int_s _)); auto.
  - assert (b <> 0) by tauto. replace (b =? 0) with false by lia. unfold sdiv.
    replace (b =? 0) with false by lia. apply (proj1 (is_int_s _)) in Hr. apply in_s_b in Hr. rewrite Hr. auto.
  - assert (b <> 0) by tauto. replace (b =? 0) with false by lia. unfold srem.
    replace (b =? 0) with false by lia.
    assert (is_int (Z.quot a b)) as Q.
    { assert (a <> int_min \/ b <> -1) by (destruct (Z.eq_dec a int_min), (Z.eq_dec b (-1)); tauto).
      clear Hx Hr. unfold is_int, int_min, int_max in *.
      assert (Z.abs (Z.quot a b) = Z.quot (Z.abs a) (Z.abs b)) by (symmetry; apply Z.quot_abs; auto).
      destruct (Z.eq_dec (Z.abs b) 1).
      - assert (b = 1 \/ b = -1) as [->| ->] by lia; [rewrite Z.quot_1_r|change (-1) with (- (1)); rewrite Z.quot_opp_r, Z.quot_1_r by lia]; lia.
      - assert (Z.quot (Z.abs a) (Z.abs b) <= Z.abs a / 2).
        { rewrite Z.quot_div_nonneg by lia. apply Z.div_le_compat_l; lia. }
        assert (Z.abs a / 2 <= 1073741824). { apply Z.div_le_upper_bound; lia. } lia. }
    apply (proj1 (is_int_s _)) in Q. apply in_s_b in Q. rewrite Q. auto.
Qed.
Lemma int_op_zero m o a : o = IDiv \/ o = IMod -> int_op m o a 0 = Throw ArithmeticException.
Proof. intros [->| ->]; reflexivity. Qed.
Lemma int_op_overflow o a b : o = IAdd \/ o = ISub \/ o = IMul -> ~ is_int (int_math o a b) ->
  int_op HW o a b = Ok (wrap 32 (int_math o a b)) /\ int_op ISO o a b = UB SignedOverflow.
Proof.
  intros H Hr. assert (R : ~ in_s 32 (int_math o a b)) by (intros R; apply Hr, is_int_s, R).
  destruct H as [->|[->| ->]]; cbn [int_op int_math] in *; unfold sadd, ssub, smul;
    rewrite sres_HW, sres_ISO_ub by (auto; lia); auto.
Qed.

(** The text of an Integer object follows its value through any sequence of
    compound assignments. *)
Fixpoint assign_all (m : cpp) (x : integer) (l : list (iop * Z)) : outcome integer :=
  match l with
  | [] => Ok x
  | (o, b) :: t => let* x' := int_op_assign m o x b in assign_all m x' t
  end.
Lemma itoa_canonical x : canonical_signed 10 (itoa x) x.
Proof.
  unfold itoa. destruct (Z.ltb_spec x 0).
  - right. exists (utoa 10 (- x)), (- x). split; auto. split; [lia|]. split; [apply utoa_canonical; lia|lia].
  - left. apply utoa_canonical; lia.
Qed.
Lemma assign_all_text m l : forall x x', canonical_signed 10 (itext x) (ival x) ->
  assign_all m x l = Ok x' -> canonical_signed 10 (itext x') (ival x').
Proof.
  induction l as [|[o b] t IH]; intros x x' H E; cbn [assign_all] in E.
  - inversion E; subst; auto.
  - unfold int_op_assign in E. destruct (int_op m o (ival x) b); cbn [bind] in E; try discriminate.
    eapply IH; [|exact E]. cbn. apply itoa_canonical.
Qed.
