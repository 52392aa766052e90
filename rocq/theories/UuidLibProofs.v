(** Proofs about libuuid: pack, unpack, parse, unparse. *)

From Coq Require Import ZArith List Lia Bool.
From Verif Require Import Base Bits CppText TextSpec TextLemmas LongProofs2 UuidSpec UuidLibModel UuidProofs.
Import ListNotations.
Open Scope Z_scope.
Local Notation length := List.length.

(** The fields have their widths. *)
Definition fields_ok (u : uuid) : Prop :=
  0 <= time_low u < 2 ^ 32 /\ 0 <= time_mid u < 2 ^ 16 /\ 0 <= time_hi_and_version u < 2 ^ 16 /\ 0 <= clock_seq u < 2 ^ 16 /\
  length (node u) = 6%nat /\ Forall (fun b => 0 <= b < 256) (node u).

Lemma gather_step a b : 0 <= a < 2 ^ 24 -> 0 <= b < 256 -> Z.lor (uwrap 32 (Z.shiftl a 8)) b = a * 256 + b.
Proof.
  intros A B. unfold uwrap. rewrite Z.shiftl_mul_pow2, Z.mod_small by lia. rewrite <- Z.shiftl_mul_pow2 by lia. rewrite lor_shiftl_add by lia. lia.
Qed.
Lemma gather2 a b : 0 <= a < 256 -> 0 <= b < 256 -> gather [a; b] = a * 256 + b.
Proof. intros. unfold gather. cbn [fold_left]. rewrite !gather_step by (try rewrite gather_step; lia). lia. Qed.
Lemma gather4 a b c d : 0 <= a < 256 -> 0 <= b < 256 -> 0 <= c < 256 -> 0 <= d < 256 -> gather [a; b; c; d] = ((a * 256 + b) * 256 + c) * 256 + d.
Proof.
  intros. unfold gather. cbn [fold_left]. rewrite (gather_step 0 a) by lia. rewrite (gather_step _ b) by lia. rewrite (gather_step _ c) by lia. rewrite (gather_step _ d) by lia. lia.
Qed.

Lemma bytes16 l : uuid_bytes l -> exists b0 b1 b2 b3 b4 b5 b6 b7 b8 b9 n, l = [b0;b1;b2;b3;b4;b5;b6;b7;b8;b9] ++ n /\
  length n = 6%nat /\ Forall (fun b => 0 <= b < 256) n /\ Forall (fun b => 0 <= b < 256) [b0;b1;b2;b3;b4;b5;b6;b7;b8;b9].
Proof.
  intros (L & F). do 10 (destruct l as [|? l]; [discriminate|]). exists z, z0, z1, z2, z3, z4, z5, z6, z7, z8, l. split; [reflexivity|].
  change (Forall (fun b => 0 <= b < 256) ([z;z0;z1;z2;z3;z4;z5;z6;z7;z8] ++ l)) in F. apply Forall_app in F as (F1 & F2). cbn in L. split; [lia|]. auto.
Qed.
Ltac forall_inv := repeat match goal with H : Forall _ (_ :: _) |- _ => inversion H; clear H; subst end.

Lemma unpack_eq b0 b1 b2 b3 b4 b5 b6 b7 b8 b9 n : length n = 6%nat -> Forall (fun b => 0 <= b < 256) [b0;b1;b2;b3;b4;b5;b6;b7;b8;b9] ->
  uuid_unpack ([b0;b1;b2;b3;b4;b5;b6;b7;b8;b9] ++ n) =
  mkU (((b0 * 256 + b1) * 256 + b2) * 256 + b3) (b4 * 256 + b5) (b6 * 256 + b7) (b8 * 256 + b9) n.
Proof.
  intros L F. unfold uuid_unpack. cbn [app firstn skipn]. forall_inv. rewrite gather4, !gather2 by assumption.
  unfold uwrap. change (2 ^ 16) with 65536. rewrite !Z.mod_small by lia. f_equal. clear - L. do 6 (destruct n as [|? n]; [discriminate|]). destruct n; [reflexivity | discriminate].
Qed.
Lemma unpack_ok l : uuid_bytes l -> fields_ok (uuid_unpack l).
Proof.
  intros B. destruct (bytes16 l B) as (b0&b1&b2&b3&b4&b5&b6&b7&b8&b9&n&->&L&N&F). rewrite unpack_eq by assumption. forall_inv.
  unfold fields_ok. cbn [time_low time_mid time_hi_and_version clock_seq node]. change (2 ^ 32) with 4294967296. change (2 ^ 16) with 65536. repeat split; try lia; assumption.
Qed.
Lemma byte_hi a b k : 0 <= b < 256 -> 0 <= a < 256 -> 0 <= k -> uwrap 8 ((k * 256 + a) * 256 + b) = b /\ Z.shiftr (k * 256 + a) 8 = k.
Proof.
  intros B A K. split; [unfold uwrap; change (2 ^ 8) with 256; rewrite Z.add_comm, Z.mod_add, Z.mod_small by lia; reflexivity|].
  rewrite Z.shiftr_div_pow2 by lia. change (2 ^ 8) with 256. rewrite Z.div_add_l, Z.div_small by lia. lia.
Qed.
Lemma low8 k b : 0 <= b < 256 -> uwrap 8 (k * 256 + b) = b.
Proof. intros B. unfold uwrap. change (2 ^ 8) with 256. rewrite Z.add_comm, Z.mod_add, Z.mod_small by lia. reflexivity. Qed.
Lemma shr8 k b : 0 <= b < 256 -> Z.shiftr (k * 256 + b) 8 = k.
Proof. intros B. rewrite Z.shiftr_div_pow2 by lia. change (2 ^ 8) with 256. rewrite Z.div_add_l, Z.div_small by lia. lia. Qed.
Lemma byte_id b : 0 <= b < 256 -> uwrap 8 b = b.
Proof. intros B. unfold uwrap. apply Z.mod_small. lia. Qed.
Lemma shr16 x : Z.shiftr x 16 = Z.shiftr (Z.shiftr x 8) 8.
Proof. rewrite Z.shiftr_shiftr by lia. reflexivity. Qed.
Lemma shr24 x : Z.shiftr x 24 = Z.shiftr (Z.shiftr (Z.shiftr x 8) 8) 8.
Proof. rewrite !Z.shiftr_shiftr by lia. reflexivity. Qed.

Lemma pack_unpack l : uuid_bytes l -> uuid_pack (uuid_unpack l) = l.
Proof.
  intros B. destruct (bytes16 l B) as (b0&b1&b2&b3&b4&b5&b6&b7&b8&b9&n&->&L&N&F). rewrite unpack_eq by assumption. forall_inv.
  unfold uuid_pack. cbn [time_low time_mid time_hi_and_version clock_seq node]. f_equal.
  rewrite shr24, shr16, !shr8, !low8, !byte_id by assumption. reflexivity.
Qed.
Lemma word16 x : 0 <= x < 2 ^ 16 -> exists a b, x = a * 256 + b /\ 0 <= a < 256 /\ 0 <= b < 256.
Proof.
  intros X. exists (x / 256), (x mod 256). change (2 ^ 16) with 65536 in X. pose proof (Z.mod_pos_bound x 256). pose proof (Z.div_mod x 256).
  assert (0 <= x / 256 < 256) by (split; [apply Z.div_pos; lia | apply Z.div_lt_upper_bound; lia]). lia.
Qed.
Lemma word32 x : 0 <= x < 2 ^ 32 -> exists a b c d, x = ((a * 256 + b) * 256 + c) * 256 + d /\ 0 <= a < 256 /\ 0 <= b < 256 /\ 0 <= c < 256 /\ 0 <= d < 256.
Proof.
  intros X. change (2 ^ 32) with 4294967296 in X. pose proof (Z.div_mod x 65536). pose proof (Z.mod_pos_bound x 65536).
  assert (0 <= x / 65536 < 65536) by (split; [apply Z.div_pos; lia | apply Z.div_lt_upper_bound; lia]).
  destruct (word16 (x / 65536)) as (a & b & E & A & B); [lia|]. destruct (word16 (x mod 65536)) as (c & d & E2 & C & D); [lia|].
  exists a, b, c, d. lia.
Qed.
Lemma pack_ok u : fields_ok u -> uuid_bytes (uuid_pack u).
Proof.
  intros (_ & _ & _ & _ & L & F). split; [unfold uuid_pack; rewrite app_length, L; reflexivity|]. unfold uuid_pack. apply Forall_app. split; [|exact F].
  repeat (constructor; [unfold uwrap; apply Z.mod_pos_bound; lia|]). constructor.
Qed.
Lemma unpack_pack u : fields_ok u -> uuid_unpack (uuid_pack u) = u.
Proof.
  destruct u as [tl tm th cs n]. intros (A & B & C & D & L & F). cbn [time_low time_mid time_hi_and_version clock_seq node] in *.
  destruct (word32 tl A) as (a0 & a1 & a2 & a3 & -> & ? & ? & ? & ?). destruct (word16 tm B) as (b0 & b1 & -> & ? & ?).
  destruct (word16 th C) as (c0 & c1 & -> & ? & ?). destruct (word16 cs D) as (d0 & d1 & -> & ? & ?).
  unfold uuid_pack. cbn [time_low time_mid time_hi_and_version clock_seq node].
  rewrite shr24, shr16, !shr8, !low8, !byte_id by assumption. apply unpack_eq; [exact L|]. repeat (constructor; [assumption|]). constructor.
Qed.

(** ** unparse *)
Lemma hex0 n : hex n 0 = repeat 48 n.
Proof. induction n as [|n IH]; cbn [hex]; [reflexivity|]. change (0 / 16) with 0. rewrite IH. change [hexchar (0 mod 16)] with [48]. symmetry. apply repeat_cons. Qed.
Lemma format_x_ok w v : (0 < w)%nat -> 0 <= v < 16 ^ Z.of_nat w -> format_x w v = hex w v.
Proof.
  intros W V. unfold format_x. destruct (utoa_canonical 16 v ltac:(lia) ltac:(lia)) as ((NE & ds & F & E) & LO & C).
  set (t := utoa 16 v) in *.
  assert (T : t = hex (length t) v) by (rewrite E; apply numeral_hex; assumption).
  assert (LE : (length t <= w)%nat).
  { destruct (Z.eq_dec (hd 0 t) 48) as [H|H]; [rewrite (C H); cbn; lia|].
    pose proof (digits_len t ds F LO NE H) as R. rewrite <- E in R.
    assert (A : 16 ^ (zlen t - 1) < 16 ^ Z.of_nat w) by lia. apply Z.pow_lt_mono_r_iff in A; [|lia|lia]. unfold zlen in A. lia. }
  assert (S : v / 16 ^ Z.of_nat (length t) = 0).
  { apply Z.div_small. split; [lia|]. rewrite E. destruct (Z.eq_dec (hd 0 t) 48) as [H|H].
    - assert (DS : ds = [0]). { rewrite (C H) in F. inversion F as [|? d ? ? D N]; subst. inversion N; subst. vm_compute in D. destruct D as (D & _). injection D as <-. reflexivity. }
      rewrite DS. rewrite (C H). cbn. lia.
    - pose proof (digits_len t ds F LO NE H) as R. unfold zlen in R. apply R. }
  rewrite T at 2. replace w with ((w - length t) + length t)%nat at 2 by lia. rewrite hex_app, S, hex0. reflexivity.
Qed.

Definition fields_text (u : uuid) : str :=
  hex 8 (time_low u) ++ [45] ++ hex 4 (time_mid u) ++ [45] ++ hex 4 (time_hi_and_version u) ++ [45] ++
  hex 4 (clock_seq u) ++ [45] ++ List.concat (map (hex 2) (node u)).
Lemma unparse_fields l : uuid_bytes l -> uuid_unparse_lower l = fields_text (uuid_unpack l).
Proof.
  intros B. unfold uuid_unparse_lower, fields_text. destruct (unpack_ok l B) as (A0 & A1 & A2 & A3 & A4 & A5). set (u := uuid_unpack l) in *.
  rewrite !format_x_ok; try lia; cbn [Z.of_nat Pos.of_succ_nat Pos.succ]; try (change (16 ^ 8) with (2 ^ 32); lia); try (change (16 ^ 4) with (2 ^ 16); lia).
  - replace (map (format_x 2) (node u)) with (map (hex 2) (node u)).
    2: { clear - A5. induction A5 as [|b n B N IH]; [reflexivity|]. cbn [map]. rewrite IH. f_equal. symmetry. apply format_x_ok; [lia|]. exact B. }
    pose proof (hex_app 2 2 (clock_seq u)) as HA. cbn [Z.of_nat Pos.of_succ_nat Pos.succ Nat.add] in HA. change (16 ^ 2) with (2 ^ 8) in HA. rewrite <- Z.shiftr_div_pow2 in HA by lia. rewrite HA.
    replace (hex 2 (Z.land (clock_seq u) 255)) with (hex 2 (clock_seq u)).
    2: { apply hex_cong. change 255 with (Z.ones 8). rewrite Z.land_ones by lia. cbn [Z.of_nat Pos.of_succ_nat Pos.succ]. change (16 ^ 2) with (2 ^ 8). rewrite Z.mod_mod by lia. reflexivity. }
    rewrite <- !app_assoc. reflexivity.
  - change (16 ^ 2) with 256. change 255 with (Z.ones 8). rewrite Z.land_ones by lia. apply Z.mod_pos_bound. lia.
  - change (16 ^ 2) with 256. rewrite Z.shiftr_div_pow2 by lia. change (2 ^ 16) with 65536 in A3. change (2 ^ 8) with 256. split; [apply Z.div_pos; lia | apply Z.div_lt_upper_bound; lia].
Qed.
Lemma number_of_app a b : number_of (a ++ b) = number_of a * 256 ^ zlen b + number_of b.
Proof.
  unfold number_of. change (fold_left (fun a0 b0 => a0 * 256 + b0) ?l 0) with (numval 256 l). apply numval_app.
Qed.
Lemma number_bound l : Forall (fun b => 0 <= b < 256) l -> 0 <= number_of l < 256 ^ zlen l.
Proof. intros F. apply (numval_bound 256 l); [lia | exact F]. Qed.
Lemma hex_bytes n : Forall (fun b => 0 <= b < 256) n -> List.concat (map (hex 2) n) = hex (2 * length n) (number_of n).
Proof.
  induction n as [|b n IH] using rev_ind; intros F; [reflexivity|]. apply Forall_app in F as (F1 & F2). inversion F2; subst.
  rewrite map_app, concat_app, IH by assumption. rewrite app_length. cbn [map List.concat length]. rewrite app_nil_r.
  replace (2 * (length n + 1))%nat with (2 * length n + 2)%nat by lia. rewrite hex_app.
  rewrite number_of_app. change (zlen [b]) with 1. change (256 ^ 1) with 256. change (number_of [b]) with b. cbn [Z.of_nat Pos.of_succ_nat Pos.succ]. change (16 ^ 2) with 256.
  rewrite Z.div_add_l, Z.div_small, Z.add_0_r by lia. f_equal. apply hex_cong. cbn [Z.of_nat Pos.of_succ_nat Pos.succ]. change (16 ^ 2) with 256.
  rewrite (Z.add_comm (_ * 256)), Z.mod_add by lia. reflexivity.
Qed.
Lemma number_fields l : uuid_bytes l -> let u := uuid_unpack l in
  number_of l = ((((time_low u * 2 ^ 16 + time_mid u) * 2 ^ 16 + time_hi_and_version u) * 2 ^ 16 + clock_seq u) * 2 ^ 48) + number_of (node u) /\ 0 <= number_of (node u) < 2 ^ 48.
Proof.
  intros B. destruct (bytes16 l B) as (b0&b1&b2&b3&b4&b5&b6&b7&b8&b9&n&->&L&N&F). rewrite unpack_eq by assumption.
  cbn [time_low time_mid time_hi_and_version clock_seq node]. rewrite number_of_app. unfold zlen at 1. rewrite L. split.
  - unfold number_of at 1. cbn [fold_left]. change (256 ^ Z.of_nat 6) with (2 ^ 48). change (2 ^ 16) with 65536. lia.
  - pose proof (number_bound n N) as R. unfold zlen in R. rewrite L in R. exact R.
Qed.
Lemma div_low a p b : 0 <= b < p -> (a * p + b) / p = a.
Proof. intros. rewrite Z.div_add_l, Z.div_small by lia. lia. Qed.
Lemma fields_text_number l : uuid_bytes l -> fields_text (uuid_unpack l) = uuid_text (number_of l).
Proof.
  intros B. destruct (number_fields l B) as (E & R). pose proof (unpack_ok l B) as (A0 & A1 & A2 & A3 & A4 & A5). set (u := uuid_unpack l) in *.
  unfold fields_text, uuid_text. rewrite hex_bytes, A4 by assumption. rewrite E.
  set (x := number_of (node u)) in *.
  assert (D48 : forall a, (a * 2 ^ 48 + x) / 2 ^ 48 = a) by (intros; apply div_low; lia).
  change (2 ^ 96) with (2 ^ 48 * 2 ^ 48). change (2 ^ 80) with (2 ^ 48 * 2 ^ 32). change (2 ^ 64) with (2 ^ 48 * 2 ^ 16).
  rewrite <- !Z.div_div by lia. rewrite !D48.
  change (2 ^ 48) with (2 ^ 16 * (2 ^ 16 * 2 ^ 16)) at 1. change (2 ^ 32) with (2 ^ 16 * 2 ^ 16). rewrite <- !Z.div_div by lia.
  rewrite !(div_low _ (2 ^ 16)) by lia.
  assert (H : forall n a k b, 0 <= k -> 4 * Z.of_nat n <= k -> hex n (a * 2 ^ k + b) = hex n b).
  { clear. intros n a k b K NK. apply hex_cong. rewrite pow16. replace k with (4 * Z.of_nat n + (k - 4 * Z.of_nat n)) by lia. rewrite Z.pow_add_r by lia.
    replace (a * (2 ^ (4 * Z.of_nat n) * 2 ^ (k - 4 * Z.of_nat n)) + b) with (b + a * 2 ^ (k - 4 * Z.of_nat n) * 2 ^ (4 * Z.of_nat n)) by ring. apply Z.mod_add. apply Z.pow_nonzero; lia. }
  rewrite !(H 4%nat _ 16) by lia. rewrite (H 12%nat _ 48) by lia. reflexivity.
Qed.
Lemma unparse_ok l : uuid_bytes l -> uuid_unparse_lower l = uuid_text (number_of l).
Proof. intros B. rewrite unparse_fields, fields_text_number by assumption. reflexivity. Qed.
Lemma unparse_upper_ok l : uuid_unparse_upper l = map c_toupper (uuid_unparse_lower l).
Proof.
  unfold uuid_unparse_upper, uuid_unparse_lower, format_X. rewrite !map_app. cbn [map]. change (c_toupper 45) with 45. rewrite concat_map, map_map. reflexivity.
Qed.
