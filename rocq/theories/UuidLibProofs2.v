(** Proofs about libuuid: parse, accessors, generation. *)

From Coq Require Import ZArith List Lia Bool.
From Verif Require Import Base Bits CppText TextSpec TextLemmas LongProofs2 UuidSpec UuidLibModel UuidProofs UuidLibProofs.
Import ListNotations.
Open Scope Z_scope.
Local Notation length := List.length.

(** ** parse *)
Lemma digit_tolower c d : is_digit 16 c d -> c_tolower c = hexchar d /\ 0 <= d < 16.
Proof.
  intros (H & L). revert H. unfold c_tolower, hexchar, digit_val, is_digit_c, is_lower_c, is_upper_c.
  repeat match goal with |- context [?a <=? ?b] => destruct (Z.leb_spec a b); cbn [andb] end; intros HH; try discriminate; injection HH as <-;
    match goal with |- context [?a <? ?b] => destruct (Z.ltb_spec a b) end; lia.
Qed.
Lemma tolower_digit c d : 0 <= d < 16 -> c_tolower c = hexchar d -> is_digit 16 c d.
Proof.
  intros D E. unfold is_digit. split; [|lia]. revert E. unfold c_tolower, hexchar, digit_val, is_digit_c, is_lower_c, is_upper_c.
  destruct (Z.ltb_spec d 10); repeat match goal with |- context [?a <=? ?b] => destruct (Z.leb_spec a b); cbn [andb] end; intros E; try lia; f_equal; lia.
Qed.
Lemma xdigit_iff c : is_xdigit_c c = true <-> exists d, is_digit 16 c d.
Proof.
  unfold is_xdigit_c, is_digit. destruct (digit_val c) as [d|]; split; try discriminate.
  - intros H. exists d. split; [reflexivity | lia].
  - intros (e & [= <-] & L). lia.
  - intros (e & H & _). discriminate.
Qed.
Lemma chunk_lower p ds : Forall2 (is_digit 16) p ds -> map c_tolower p = hex (length p) (numval 16 ds).
Proof.
  intros F. rewrite <- (map_length c_tolower p). apply numeral_hex.
  - induction F as [|c d p ds D F IH]; cbn [map]; constructor; [|exact IH]. destruct (digit_tolower c d D) as (E & R). rewrite E.
    destruct (hexchar_facts d R) as (V & _). split; [exact V | lia].
  - induction F as [|c d p ds D F IH]; cbn [map]; constructor; [|exact IH]. destruct (digit_tolower c d D) as (E & R). rewrite E. apply (hexchar_facts d R).
Qed.
Lemma chunk_digits : forall n p v, map c_tolower p = hex n v -> exists ds, Forall2 (is_digit 16) p ds /\ numval 16 ds = v mod 16 ^ Z.of_nat n.
Proof.
  induction n as [|n IH]; intros p v E; cbn [hex] in E.
  - destruct p; [|discriminate]. exists []. split; [constructor|]. cbn. rewrite Z.mod_1_r. reflexivity.
  - destruct p as [|c p _] using rev_ind; [destruct (hex n (v / 16)); discriminate|]. rewrite map_app in E. cbn [map] in E. apply app_inj_tail in E as (E1 & E2).
    destruct (IH p _ E1) as (ds & F & EN). exists (ds ++ [v mod 16]). split.
    + apply Forall2_app; [exact F|]. constructor; [|constructor]. apply tolower_digit; [apply Z.mod_pos_bound; lia | exact E2].
    + rewrite numval_snoc, EN. rewrite Nat2Z.inj_succ, Z.pow_succ_r by lia. rewrite (Z.rem_mul_r v 16) by (try lia; apply Z.pow_pos_nonneg; lia). lia.
Qed.
Lemma digits_range p ds : Forall2 (is_digit 16) p ds -> 0 <= numval 16 ds < 16 ^ Z.of_nat (length p).
Proof.
  intros F. assert (L : length p = length ds) by (clear - F; induction F; cbn; congruence). rewrite L. change (Z.of_nat (length ds)) with (zlen ds). apply numval_bound; [lia|].
  clear L. induction F as [|c d p ds D F IH]; constructor; [apply (digit_tolower c d D) | exact IH].
Qed.
Lemma strtoul_chunk p ds r : Forall2 (is_digit 16) p ds -> (length p <= 16)%nat -> r = [] \/ (exists t, r = 45 :: t) -> strtoul16 (p ++ r) = numval 16 ds.
Proof.
  intros F L R. unfold strtoul16. assert (E : hex_prefix (p ++ r) = ds).
  { clear L. induction F as [|c d p ds (V & D) F IH]; cbn [app hex_prefix].
    - destruct R as [->|(t & ->)]; reflexivity.
    - rewrite V. destruct (Z.ltb_spec d 16); [|lia]. rewrite IH. reflexivity. }
  rewrite E. pose proof (digits_range p ds F) as B. assert (16 ^ Z.of_nat (length p) <= 16 ^ 16) by (apply Z.pow_le_mono_r; lia). change (16 ^ 16) with (2 ^ 64) in *. lia.
Qed.

Definition dash_at (i : Z) : bool := (i =? 8) || (i =? 13) || (i =? 18) || (i =? 23).
Lemma check_run p ds : Forall2 (is_digit 16) p ds -> forall r i, (forall j, i <= j < i + zlen p -> dash_at j = false) ->
  parse_check HW (p ++ r) i = parse_check HW r (i + zlen p).
Proof.
  induction 1 as [|c d p ds D F IH]; intros r i NO; [cbn; rewrite Z.add_0_r; reflexivity|].
  rewrite zlen_cons in *. pose proof (zlen_nonneg p). cbn [app parse_check]. fold (dash_at i). rewrite NO by lia.
  replace (ctype HW is_xdigit_c c) with (@Ok bool true) by (unfold ctype; f_equal; symmetry; apply xdigit_iff; eauto). cbn [bind].
  rewrite IH by (intros j J; apply NO; lia). f_equal. lia.
Qed.
Lemma check_inv n : forall s i, (n <= length s)%nat -> (forall j, i <= j < i + Z.of_nat n -> dash_at j = false) -> parse_check HW s i = Ok true ->
  exists p r ds, s = p ++ r /\ length p = n /\ Forall2 (is_digit 16) p ds /\ parse_check HW r (i + Z.of_nat n) = Ok true.
Proof.
  induction n as [|n IH]; intros s i L NO E.
  - exists [], s, []. repeat split; [constructor|]. rewrite Z.add_0_r. exact E.
  - destruct s as [|c s]; [cbn in L; lia|]. cbn [parse_check] in E. fold (dash_at i) in E. rewrite NO in E by lia. cbn [ctype bind] in E.
    destruct (is_xdigit_c c) eqn:X; [|discriminate]. apply xdigit_iff in X as (d & D).
    destruct (IH s (i + 1)) as (p & r & ds & -> & LP & F & C); [cbn in L; lia | intros j J; apply NO; lia | exact E|].
    exists (c :: p), r, (d :: ds). split; [reflexivity|]. split; [cbn; lia|]. split; [constructor; assumption|]. rewrite <- C. f_equal. lia.
Qed.
Lemma check_bool s : forall i, exists b, parse_check HW s i = Ok b.
Proof.
  induction s as [|c s IH]; intros i; cbn [parse_check]; eauto. destruct (_ || _); [destruct (c =? 45); eauto|]. cbn [ctype bind]. destruct (is_xdigit_c c); eauto.
Qed.
Lemma check_dash s i : dash_at i = true -> s <> [] -> parse_check HW s i = Ok true -> exists r, s = 45 :: r /\ parse_check HW r (i + 1) = Ok true.
Proof.
  intros D NE E. destruct s as [|c s]; [congruence|]. cbn [parse_check] in E. fold (dash_at i) in E. rewrite D in E. destruct (Z.eqb_spec c 45); [subst; eauto | discriminate].
Qed.

Lemma parse_node_ok n : forall p, length p = (2 * n)%nat -> Forall (fun c => exists d, is_digit 16 c d) p ->
  length (parse_node n p) = n /\ Forall (fun b => 0 <= b < 256) (parse_node n p) /\ List.concat (map (hex 2) (parse_node n p)) = map c_tolower p.
Proof.
  induction n as [|n IH]; intros p L F.
  - destruct p; [repeat constructor | discriminate].
  - do 2 (destruct p as [|? p]; [cbn in L; lia|]). inversion F as [|? ? (d & D) F1]; subst. inversion F1 as [|? ? (e & E) F2]; subst.
    destruct (IH p) as (A & B & C); [cbn in L; lia | exact F2|]. cbn [parse_node firstn skipn].
    assert (F2' : Forall2 (is_digit 16) [z; z0] [d; e]) by (constructor; [exact D | constructor; [exact E | constructor]]).
    pose proof (strtoul_chunk [z; z0] [d; e] [] F2' ltac:(cbn; lia) (or_introl eq_refl)) as S. rewrite app_nil_r in S. rewrite S.
    pose proof (digits_range _ _ F2') as R. cbn [length] in R. change (16 ^ Z.of_nat 2) with 256 in R. rewrite byte_id by exact R.
    split; [cbn; lia|]. split; [constructor; assumption|]. cbn [map List.concat app]. rewrite C. pose proof (chunk_lower _ _ F2') as CL. cbn [length map] in CL. rewrite <- CL. reflexivity.
Qed.

Lemma text_length l : uuid_bytes l -> length (uuid_text (number_of l)) = 36%nat.
Proof. intros. unfold uuid_text. rewrite !app_length, !hex_length. reflexivity. Qed.

Lemma digits_xd p ds : Forall2 (is_digit 16) p ds -> Forall (fun c => exists d, is_digit 16 c d) p.
Proof. induction 1; constructor; eauto. Qed.

Lemma parse_parts p0 d0 p1 d1 p2 d2 p3 d3 p4 d4 :
  Forall2 (is_digit 16) p0 d0 -> Forall2 (is_digit 16) p1 d1 -> Forall2 (is_digit 16) p2 d2 -> Forall2 (is_digit 16) p3 d3 -> Forall2 (is_digit 16) p4 d4 ->
  length p0 = 8%nat -> length p1 = 4%nat -> length p2 = 4%nat -> length p3 = 4%nat -> length p4 = 12%nat ->
  let s := p0 ++ [45] ++ p1 ++ [45] ++ p2 ++ [45] ++ p3 ++ [45] ++ p4 in
  let u := mkU (numval 16 d0) (numval 16 d1) (numval 16 d2) (numval 16 d3) (parse_node 6 p4) in
  uuid_parse HW s = Ok (Some (uuid_pack u)) /\ fields_ok u /\ map c_tolower s = fields_text u.
Proof.
  intros F0 F1 F2 F3 F4 L0 L1 L2 L3 L4 s u.
  assert (LEN : zlen s = 36) by (unfold s, zlen; rewrite !app_length, L0, L1, L2, L3, L4; reflexivity).
  assert (CH : parse_check HW s 0 = Ok true).
  { unfold s. rewrite (check_run p0 d0 F0) by (intros j J; unfold zlen in J; rewrite L0 in J; unfold dash_at; lia).
    unfold zlen. rewrite L0. cbn [Z.add Z.of_nat Pos.of_succ_nat Pos.succ app]. cbn [parse_check]. change (8 =? 8) with true. change (45 =? 45) with true. cbn [orb].
    rewrite (check_run p1 d1 F1) by (intros j J; unfold zlen in J; rewrite L1 in J; unfold dash_at; lia).
    unfold zlen. rewrite L1. change (8 + 1 + Z.of_nat 4) with 13. cbn [parse_check]. change (13 =? 13) with true. change (45 =? 45) with true. rewrite ?orb_true_r, ?orb_true_l.
    rewrite (check_run p2 d2 F2) by (intros j J; unfold zlen in J; rewrite L2 in J; unfold dash_at; lia).
    unfold zlen. rewrite L2. change (13 + 1 + Z.of_nat 4) with 18. cbn [parse_check]. change (18 =? 18) with true. change (45 =? 45) with true. rewrite ?orb_true_r, ?orb_true_l.
    rewrite (check_run p3 d3 F3) by (intros j J; unfold zlen in J; rewrite L3 in J; unfold dash_at; lia).
    unfold zlen. rewrite L3. change (18 + 1 + Z.of_nat 4) with 23. cbn [parse_check]. change (23 =? 23) with true. change (45 =? 45) with true. rewrite ?orb_true_r, ?orb_true_l.
    rewrite <- (app_nil_r p4). rewrite (check_run p4 d4 F4) by (intros j J; unfold zlen in J; rewrite L4 in J; unfold dash_at; lia). reflexivity. }
  assert (SK : forall (a b : str) n, length a = n -> skipn n (a ++ b) = b). { intros a b n <-. rewrite skipn_app, skipn_all, Nat.sub_diag. reflexivity. }
  assert (S9 : skipn 9 s = p1 ++ [45] ++ p2 ++ [45] ++ p3 ++ [45] ++ p4). { unfold s. rewrite app_assoc. apply SK. rewrite app_length, L0. reflexivity. }
  assert (S14 : skipn 14 s = p2 ++ [45] ++ p3 ++ [45] ++ p4). { unfold s. replace (p0 ++ [45] ++ p1 ++ [45] ++ p2 ++ [45] ++ p3 ++ [45] ++ p4) with ((p0 ++ [45] ++ p1 ++ [45]) ++ p2 ++ [45] ++ p3 ++ [45] ++ p4) by (rewrite <- !app_assoc; reflexivity). apply SK. rewrite !app_length, L0, L1. reflexivity. }
  assert (S19 : skipn 19 s = p3 ++ [45] ++ p4). { unfold s. replace (p0 ++ [45] ++ p1 ++ [45] ++ p2 ++ [45] ++ p3 ++ [45] ++ p4) with ((p0 ++ [45] ++ p1 ++ [45] ++ p2 ++ [45]) ++ p3 ++ [45] ++ p4) by (rewrite <- !app_assoc; reflexivity). apply SK. rewrite !app_length, L0, L1, L2. reflexivity. }
  assert (S24 : skipn 24 s = p4). { unfold s. replace (p0 ++ [45] ++ p1 ++ [45] ++ p2 ++ [45] ++ p3 ++ [45] ++ p4) with ((p0 ++ [45] ++ p1 ++ [45] ++ p2 ++ [45] ++ p3 ++ [45]) ++ p4) by (rewrite <- !app_assoc; reflexivity). apply SK. rewrite !app_length, L0, L1, L2, L3. reflexivity. }
  pose proof (digits_range _ _ F0) as R0. pose proof (digits_range _ _ F1) as R1. pose proof (digits_range _ _ F2) as R2. pose proof (digits_range _ _ F3) as R3.
  rewrite L0 in R0. rewrite L1 in R1. rewrite L2 in R2. rewrite L3 in R3. change (16 ^ Z.of_nat 8) with (2 ^ 32) in R0. change (16 ^ Z.of_nat 4) with (2 ^ 16) in R1, R2, R3.
  destruct (parse_node_ok 6 p4 L4 (digits_xd _ _ F4)) as (NL & NB & NT).
  split; [|split].
  - unfold uuid_parse. rewrite LEN. change (36 =? 36) with true. cbn [negb]. rewrite CH. cbn [bind]. rewrite S9, S14, S19, S24. unfold s.
    rewrite (strtoul_chunk p0 d0), (strtoul_chunk p1 d1), (strtoul_chunk p2 d2), (strtoul_chunk p3 d3); try assumption; try lia; try (right; eexists; reflexivity).
    unfold uwrap. rewrite !Z.mod_small by lia. reflexivity.
  - unfold fields_ok, u. cbn [time_low time_mid time_hi_and_version clock_seq node]. auto 10.
  - unfold s, fields_text, u. cbn [time_low time_mid time_hi_and_version clock_seq node]. rewrite !map_app. cbn [map]. change (c_tolower 45) with 45.
    rewrite (chunk_lower _ _ F0), (chunk_lower _ _ F1), (chunk_lower _ _ F2), (chunk_lower _ _ F3), NT, L0, L1, L2, L3. reflexivity.
Qed.

Lemma map_split (f : Z -> Z) s : forall a b, map f s = a ++ b -> exists p r, s = p ++ r /\ map f p = a /\ map f r = b /\ length p = length a.
Proof.
  induction s as [|c s IH]; intros a b E.
  - cbn in E. symmetry in E. apply app_eq_nil in E as (-> & ->). exists [], []. auto.
  - destruct a as [|x a]; [exists [], (c :: s); auto|]. cbn in E. injection E as <- E. destruct (IH a b E) as (p & r & -> & <- & <- & L). exists (c :: p), r. cbn. auto.
Qed.
Lemma dash_char c : c_tolower c = 45 -> c = 45.
Proof. unfold c_tolower. destruct (Z.leb_spec 65 c); destruct (Z.leb_spec c 90); cbn; lia. Qed.

Lemma parse_complete s l : uuid_bytes l -> map c_tolower s = uuid_text (number_of l) -> uuid_parse HW s = Ok (Some l).
Proof.
  intros B E. rewrite <- fields_text_number in E by exact B. pose proof (unpack_ok l B) as OK. set (u := uuid_unpack l) in *.
  assert (PL : uuid_pack u = l) by (apply pack_unpack; exact B).
  pose proof OK as (A0 & A1 & A2 & A3 & A4 & A5). unfold fields_text in E. rewrite hex_bytes, A4 in E by assumption.
  apply map_split in E as (p0 & r0 & -> & E0 & E & L0). apply map_split in E as (q0 & r1 & -> & Q0 & E & M0).
  apply map_split in E as (p1 & r2 & -> & E1 & E & L1). apply map_split in E as (q1 & r3 & -> & Q1 & E & M1).
  apply map_split in E as (p2 & r4 & -> & E2 & E & L2). apply map_split in E as (q2 & r5 & -> & Q2 & E & M2).
  apply map_split in E as (p3 & r6 & -> & E3 & E & L3). apply map_split in E as (q3 & p4 & -> & Q3 & E4 & M3).
  assert (DASH : forall q, map c_tolower q = [45] -> q = [45]). { intros [|c [|c' q]] H; try discriminate. injection H as H. apply dash_char in H. rewrite H. reflexivity. }
  apply DASH in Q0, Q1, Q2, Q3. subst q0 q1 q2 q3. rewrite hex_length in *.
  assert (L4 : length p4 = 12%nat) by (rewrite <- (map_length c_tolower), E4, hex_length; reflexivity).
  destruct (chunk_digits _ _ _ E0) as (d0 & F0 & N0). destruct (chunk_digits _ _ _ E1) as (d1 & F1 & N1). destruct (chunk_digits _ _ _ E2) as (d2 & F2 & N2).
  destruct (chunk_digits _ _ _ E3) as (d3 & F3 & N3). destruct (chunk_digits _ _ _ E4) as (d4 & F4 & N4).
  destruct (parse_parts p0 d0 p1 d1 p2 d2 p3 d3 p4 d4 F0 F1 F2 F3 F4 L0 L1 L2 L3 L4) as (P & FO & TX). rewrite P. do 2 f_equal. rewrite <- PL. f_equal.
  change (16 ^ Z.of_nat 8) with (2 ^ 32) in N0. change (16 ^ Z.of_nat 4) with (2 ^ 16) in N1, N2, N3. rewrite Z.mod_small in N0, N1, N2, N3 by lia. rewrite N0, N1, N2, N3.
  assert (ND : parse_node 6 p4 = node u).
  { destruct (parse_node_ok 6 p4 L4 (digits_xd _ _ F4)) as (NL & NB & NT). rewrite E4, hex_bytes, NL in NT by exact NB.
    assert (NN : number_of (parse_node 6 p4) = number_of (node u)).
    { pose proof (number_bound _ NB) as B1. pose proof (number_bound _ A5) as B2. unfold zlen in B1, B2. rewrite NL in B1. rewrite A4 in B2. change (2 * 6)%nat with 12%nat in NT.
      destruct (hex_digits 12 (number_of (parse_node 6 p4))) as (e1 & G1 & V1 & _). destruct (hex_digits 12 (number_of (node u))) as (e2 & G2 & V2 & _). rewrite NT in G1.
      assert (e1 = e2). { clear - G1 G2. revert e2 G2. induction G1 as [|c d p ds (V & _) F IH]; intros e2 G2; inversion G2 as [|? ? ? ? (V' & _)]; subst; [reflexivity|]. f_equal; [congruence | auto]. }
      subst e2. rewrite V1 in V2. change (256 ^ Z.of_nat 6) with (2 ^ 48) in *. change (16 ^ Z.of_nat 12) with (2 ^ 48) in V2. rewrite !Z.mod_small in V2 by lia. exact V2. }
    clear - NN NL A4 NB A5. revert NN NL NB A4 A5. generalize (parse_node 6 p4), (node u). generalize 6%nat.
    induction n as [|n IH]; intros a b NN LA FA LB FB; [destruct a, b; try discriminate; reflexivity|].
    destruct a as [|x a _] using rev_ind; [discriminate|]. destruct b as [|y b _] using rev_ind; [discriminate|]. rewrite app_length in LA, LB. cbn in LA, LB.
    apply Forall_app in FA as (FA & FX). apply Forall_app in FB as (FB & FY). inversion FX; subst. inversion FY; subst.
    rewrite !number_of_app in NN. change (zlen [?z]) with 1 in NN. change (256 ^ 1) with 256 in NN. change (number_of [x]) with x in NN. change (number_of [y]) with y in NN.
    assert (number_of a = number_of b /\ x = y) as (EA & ->) by lia. f_equal. apply (IH a b EA); try assumption; lia. }
  rewrite ND. subst u. destruct (uuid_unpack l); reflexivity.
Qed.
Lemma parse_sound s l : uuid_parse HW s = Ok (Some l) -> uuid_bytes l /\ map c_tolower s = uuid_text (number_of l).
Proof.
  intros E. pose proof E as E0. unfold uuid_parse in E0. destruct (Z.eqb_spec (zlen s) 36) as [L|]; [|discriminate]. cbn [negb] in E0.
  destruct (check_bool s 0) as (b & C). rewrite C in E0. cbn [bind] in E0. destruct b; [|discriminate]. clear E0. unfold zlen in L.
  destruct (check_inv 8 s 0) as (p0 & r0 & d0 & -> & L0 & F0 & C0); [lia | intros j J; unfold dash_at; lia | exact C|]. rewrite app_length in L.
  edestruct check_dash with (s := r0) (3 := C0) as (r1 & -> & C1); [reflexivity | intros ->; cbn in L; lia|]. cbn [length] in L.
  edestruct check_inv with (n := 4%nat) (s := r1) (3 := C1) as (p1 & r2 & d1 & -> & L1 & F1 & C2); [lia | intros j J; unfold dash_at; lia|]. rewrite app_length in L.
  edestruct check_dash with (s := r2) (3 := C2) as (r3 & -> & C3); [reflexivity | intros ->; cbn in L; lia|]. cbn [length] in L.
  edestruct check_inv with (n := 4%nat) (s := r3) (3 := C3) as (p2 & r4 & d2 & -> & L2 & F2 & C4); [lia | intros j J; unfold dash_at; lia|]. rewrite app_length in L.
  edestruct check_dash with (s := r4) (3 := C4) as (r5 & -> & C5); [reflexivity | intros ->; cbn in L; lia|]. cbn [length] in L.
  edestruct check_inv with (n := 4%nat) (s := r5) (3 := C5) as (p3 & r6 & d3 & -> & L3 & F3 & C6); [lia | intros j J; unfold dash_at; lia|]. rewrite app_length in L.
  edestruct check_dash with (s := r6) (3 := C6) as (r7 & -> & C7); [reflexivity | intros ->; cbn in L; lia|]. cbn [length] in L.
  edestruct check_inv with (n := 12%nat) (s := r7) (3 := C7) as (p4 & r8 & d4 & -> & L4 & F4 & C8); [lia | intros j J; unfold dash_at; lia|]. rewrite app_length in L.
  assert (r8 = []) by (destruct r8; [reflexivity | cbn in L; lia]). subst r8. rewrite app_nil_r in *.
  destruct (parse_parts p0 d0 p1 d1 p2 d2 p3 d3 p4 d4 F0 F1 F2 F3 F4 L0 L1 L2 L3 L4) as (P & FO & TX). cbn [app] in P, TX. rewrite P in E. injection E as <-.
  split; [apply pack_ok; exact FO|]. rewrite <- fields_text_number, unpack_pack by (try apply pack_ok; exact FO). exact TX.
Qed.
Lemma parse_total s : exists r, uuid_parse HW s = Ok r.
Proof. unfold uuid_parse. destruct (negb _); eauto. destruct (check_bool s 0) as (b & ->). cbn [bind]. destruct b; eauto. Qed.
