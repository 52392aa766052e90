(** C49, C50, C51, C67, C68: UUIDs. *)

From Coq Require Import ZArith List Lia Bool String.
From Verif Require Import Base Bits CppText TextSpec TextLemmas StringSpec StringModel StringProofs2 StringProps UuidSpec UuidLibModel UuidModel UuidProofs UuidLibProofs UuidLibProofs2 UuidProofs3.
Import ListNotations.
Open Scope string_scope.
Open Scope list_scope.
Open Scope Z_scope.
Local Notation length := List.length.
(** The 128-bit number a UUID object stands for; its halves are of type long. *)
Local Notation number u := (number_of_halves (mostSigBits u) (leastSigBits u)).
Local Notation longs u := (is_long (mostSigBits u) /\ is_long (leastSigBits u)).
Local Notation byte_list l := (Forall (fun b => 0 <= b < 256) l).

(** ** C49 *)
Theorem C49_text : forall m u, toString m u = Ok (uuid_text (number u)).
Proof. exact toString_ok. Qed.
Print Assumptions C49_text.
Theorem C49_round_trip : forall m u, longs u -> (let* s := toString m u in fromString m s) = Ok u.
Proof. intros m u H. rewrite toString_ok. cbn [bind]. apply fromString_ok. exact H. Qed.
Print Assumptions C49_round_trip.
Theorem C49_fromString : forall m N, 0 <= N < 2 ^ 128 -> exists u, fromString m (uuid_text N) = Ok u /\ longs u /\ number u = N.
Proof. intros m N R. destruct (halves N R) as (u & H & E). exists u. split; [rewrite <- E; apply fromString_ok; exact H|]. auto. Qed.
Print Assumptions C49_fromString.
Example C49_ex : toString ISO (mkUUID 0x123e4567e89b12d3 (-0x5bbda2e3567f8c00)) = Ok (T "123e4567-e89b-12d3-a442-5d1ca9807400")
  /\ fromString ISO (T "123e4567-e89b-12d3-a442-5d1ca9807400") = Ok (mkUUID 0x123e4567e89b12d3 (-0x5bbda2e3567f8c00)).
Proof. vm_compute. auto. Qed.

Theorem C49_unparse_lower : forall l, uuid_bytes l -> uuid_unparse_lower l = uuid_text (number_of l).
Proof. exact unparse_ok. Qed.
Print Assumptions C49_unparse_lower.
Theorem C49_unparse_upper : forall l, uuid_bytes l -> uuid_unparse_upper l = map c_toupper (uuid_text (number_of l)).
Proof. intros l B. rewrite unparse_upper_ok, unparse_ok by exact B. reflexivity. Qed.
Print Assumptions C49_unparse_upper.
(** parse accepts the canonical texts in any mixture of letter cases, nothing else. *)
Theorem C49_parse : forall s l, uuid_parse HW s = Ok (Some l) <-> uuid_bytes l /\ map c_tolower s = uuid_text (number_of l).
Proof. intros s l. split; [apply parse_sound | intros (B & E); apply parse_complete; assumption]. Qed.
Print Assumptions C49_parse.
Theorem C49_parse_total : forall s, exists r, uuid_parse HW s = Ok r.
Proof. exact parse_total. Qed.
Print Assumptions C49_parse_total.
Theorem C49_parse_unparse : forall l, uuid_bytes l -> uuid_parse HW (uuid_unparse_lower l) = Ok (Some l) /\ uuid_parse HW (uuid_unparse_upper l) = Ok (Some l).
Proof.
  assert (LO : forall n v, map c_tolower (hex n v) = hex n v).
  { induction n as [|n IH]; intros v; [reflexivity|]. cbn [hex]. rewrite map_app, IH. cbn [map]. do 2 f_equal. pose proof (Z.mod_pos_bound v 16 ltac:(lia)) as R.
    apply (Forall_forall (fun d => c_tolower (hexchar d) = hexchar d) (map Z.of_nat (seq 0 16))); [repeat constructor|]. apply in_map_iff. exists (Z.to_nat (v mod 16)). split; [lia|]. apply in_seq. lia. }
  assert (UP : forall n v, map c_tolower (map c_toupper (hex n v)) = hex n v).
  { induction n as [|n IH]; intros v; [reflexivity|]. cbn [hex]. rewrite !map_app, IH. cbn [map]. do 2 f_equal. pose proof (Z.mod_pos_bound v 16 ltac:(lia)) as R.
    apply (Forall_forall (fun d => c_tolower (c_toupper (hexchar d)) = hexchar d) (map Z.of_nat (seq 0 16))); [repeat constructor|]. apply in_map_iff. exists (Z.to_nat (v mod 16)). split; [lia|]. apply in_seq. lia. }
  intros l B. rewrite unparse_upper_ok, unparse_ok by exact B.
  split; apply parse_complete; try exact B; unfold uuid_text; rewrite ?map_app, ?LO, ?UP; reflexivity.
Qed.
Print Assumptions C49_parse_unparse.
Theorem C49_pack_unpack : (forall l, uuid_bytes l -> uuid_pack (uuid_unpack l) = l) /\ (forall u, fields_ok u -> uuid_unpack (uuid_pack u) = u).
Proof. split; [exact pack_unpack | exact unpack_pack]. Qed.
Print Assumptions C49_pack_unpack.
Example C49_lib_ex : let l := [0x12; 0x3e; 0x45; 0x67; 0xe8; 0x9b; 0x12; 0xd3; 0xa4; 0x42; 0x5d; 0x1c; 0xa9; 0x80; 0x74; 0] in
  uuid_unparse_lower l = T "123e4567-e89b-12d3-a442-5d1ca9807400" /\ uuid_parse HW (T "123E4567-E89b-12d3-A442-5D1CA9807400") = Ok (Some l) /\
  uuid_parse HW (T "123E4567-E89b-12d3-A442-5D1CA980740g") = Ok None /\ uuid_parse HW (T "123E4567+E89b-12d3-A442-5D1CA9807400") = Ok None.
Proof. vm_compute. auto. Qed.
(** isxdigit is called with a plain char: a byte above 127 is undefined in the standard. *)
Theorem C49_parse_iso : forall c r, 128 <= c < 255 -> zlen (c :: r) = 36 -> uuid_parse ISO (c :: r) = UB Precondition.
Proof.
  intros c r C L. unfold uuid_parse. rewrite L. change (36 =? 36) with true. cbn [negb].
  assert (E : parse_check ISO (c :: r) 0 = UB Precondition); [|rewrite E; reflexivity].
  cbn [parse_check]. change ((0 =? 8) || (0 =? 13) || (0 =? 18) || (0 =? 23)) with false. cbv iota. unfold ctype.
  destruct (Z.leb_spec 128 c); [|lia]. destruct (Z.ltb_spec c 255); [|lia]. reflexivity.
Qed.
Print Assumptions C49_parse_iso.

(** ** C50 *)
Local Strategy 10 [fromString].
Lemma Ok3_inj {A B C} (a a' : A) (b b' : B) (c c' : C) : Ok (a, b, c) = Ok (a', b', c') -> a = a' /\ b = b' /\ c = c'.
Proof. intros [= -> -> ->]. auto. Qed.
(** The random source gives [buf]: version and variant are replaced, nothing else. *)
Theorem C50_random : forall m buf, uuid_bytes buf -> exists u, randomUUID m buf = Ok u /\ longs u /\
  rfc_version (number u) = 4 /\ rfc_ietf (number u) /\
  (let N := number_of buf in number u = N + (4 - rfc_version N) * 2 ^ 76 + (2 - (N / 2 ^ 62) mod 4) * 2 ^ 62).
Proof.
  intros m buf B. destruct (random_fields buf B) as (LB & LN). destruct (timeUUID_ok m _ LB) as (u & E & H & NU). exists u. split; [unfold randomUUID; unfold timeUUID in E; exact E|]. split; [exact H|].
  unfold num in NU. rewrite NU. clear E H NU u. destruct (lib_fields buf B) as (E0 & E1 & E2 & E3 & E4 & _). destruct (number_fields buf B) as (NE & RN). destruct (unpack_ok buf B) as (A0 & A1 & A2 & A3 & _ & _).
  set (v := uuid_unpack buf) in *. set (N := number_of buf) in *. pose proof (Z.mod_pos_bound (time_hi_and_version v) (2 ^ 12) ltac:(lia)) as M1. pose proof (Z.mod_pos_bound (clock_seq v) (2 ^ 14) ltac:(lia)) as M2.
  destruct (fields_div (time_low v) (time_mid v) (4 * 2 ^ 12 + time_hi_and_version v mod 2 ^ 12) (2 * 2 ^ 14 + clock_seq v mod 2 ^ 14) (number_of (node v))) as (F0 & F1 & F2 & F3 & F4 & _); try assumption; try (change (2 ^ 16) with 65536; change (2 ^ 12) with 4096 in *; change (2 ^ 14) with 16384 in *; lia).
  rewrite <- LN in F0, F1, F2, F3, F4. split; [|split].
  - unfold rfc_version. rewrite <- version_field, F2. symmetry. apply Z.div_unique with (time_hi_and_version v mod 2 ^ 12); lia.
  - unfold rfc_ietf. rewrite <- ietf_field, F3. symmetry. apply Z.div_unique with (clock_seq v mod 2 ^ 14); lia.
  - cbv zeta. unfold rfc_version. rewrite <- version_field, <- ietf_field, E2, E3, LN. unfold fields_number.
    pose proof (Z.div_mod (time_hi_and_version v) (2 ^ 12) ltac:(lia)) as D1. pose proof (Z.div_mod (clock_seq v) (2 ^ 14) ltac:(lia)) as D2. clear - NE D1 D2.
    change (2 ^ 76) with (2 ^ 12 * 2 ^ 16 * 2 ^ 48). change (2 ^ 62) with (2 ^ 14 * 2 ^ 48). nia.
Qed.
Print Assumptions C50_random.
Example C50_random_ex : exists u, randomUUID ISO (repeat 255 16) = Ok u /\ toString ISO u = Ok (T "ffffffff-ffff-4fff-bfff-ffffffffffff").
Proof. eexists. split; [vm_compute; reflexivity|]. vm_compute. reflexivity. Qed.

(** One time UUID, from any clock state and any readings that do not run out. *)
Theorem C50_time : forall m nd k readings l k' rest, length nd = 6%nat -> byte_list nd -> 0 <= seq_ k < 2 ^ 14 -> 0 <= adjustment k <= 10 -> Forall reading_ok readings ->
  uuid_generate_time nd k readings = Ok (l, k', rest) ->
  exists u, timeUUID m l = Ok u /\ longs u /\ number u = number_of l /\ rfc_version (number u) = 1 /\ rfc_ietf (number u) /\
  rfc_clock_sequence (number u) = seq_ k' /\ rfc_node (number u) = number_of nd.
Proof.
  intros m nd k readings l k' rest L F K A R E. pose proof E as E0. unfold uuid_generate_time in E0.
  destruct (get_clock k readings) as [[[reg k1] rest1]| | |] eqn:G; try discriminate. cbn [bind] in E0. apply Ok3_inj in E0. destruct E0 as (E0 & -> & ->).
  destruct (get_clock_ok _ _ _ _ _ K A R G) as (K' & A' & pre & EP & _ & ER).
  assert (RK : reading_ok (last k')) by (rewrite Forall_forall in R; apply R; rewrite EP; apply in_app_iff; right; left; reflexivity).
  assert (LE : l = uuid_at nd (seq_ k') (ticks (last k') (adjustment k'))).
  { rewrite <- E0. symmetry. apply (at_of_reg nd k' reg); assumption. }
  destruct (uuid_at_fields nd (seq_ k') (ticks (last k') (adjustment k')) L F K') as (LB & _). rewrite <- LE in LB.
  destruct (timeUUID_ok m l LB) as (u & EU & H & NU). exists u. unfold num in NU. rewrite NU. split; [exact EU|]. split; [exact H|]. split; [reflexivity|].
  destruct (uuid_at_timestamp nd (seq_ k') (ticks (last k') (adjustment k')) L F K' (ticks_range _ _ RK A')) as (_ & V & I & C & N). rewrite <- LE in V, I, C, N. auto.
Qed.
Print Assumptions C50_time.
(** With readings to spare, as many UUIDs as wanted, pairwise distinct: if the
    clock was never read eleven times in a row with the same value, and stepped
    back fewer than 2^14 times. [adjustment k] counts the readings already equal to [last k]. *)
Theorem C50_distinct_partial : forall nd n readings k, length nd = 6%nat -> byte_list nd -> 0 <= seq_ k < 2 ^ 14 -> 0 <= adjustment k ->
  Forall reading_ok (last k :: readings) -> no_run 11 (repeat (last k) (Z.to_nat (adjustment k) + 1) ++ readings) ->
  descents (last k :: readings) < 2 ^ 14 -> (n <= length readings)%nat ->
  exists l, generate_times n nd k readings = Ok l /\ length l = n /\ NoDup l.
Proof. intros nd n rs k L F K A R H D LE. destruct (times_run nd L F n rs k K A R H D LE) as (l & E & N & ND & _). eauto. Qed.
Print Assumptions C50_distinct_partial.
(** Twelve readings: eleven in one microsecond, the twelfth in the next one. *)
Theorem C50_distinct_refuted : let nd := [2; 0; 0; 0; 0; 1] in
  exists k readings l a b, k = first_clock 0 (1000, 0) /\ Forall reading_ok readings /\ generate_times 12 nd k readings = Ok (a ++ [l] ++ b) /\ In l b.
Proof.
  cbv zeta. exists (first_clock 0 (1000, 0)), (repeat (1000, 0) 11 ++ [(1000, 1)]).
  eexists. exists (match generate_times 10 [2; 0; 0; 0; 0; 1] (first_clock 0 (1000, 0)) (repeat (1000, 0) 10) with Ok x => x | _ => [] end). eexists. split; [reflexivity|]. split; [repeat constructor; discriminate|].
  split; [vm_compute; reflexivity|]. left. vm_compute. reflexivity.
Qed.
Print Assumptions C50_distinct_refuted.
(** A clock that steps back 2^14 + 1 times. *)
Theorem C50_backward_refuted : forall nd sq a b, 0 <= sq < 2 ^ 14 -> reading_ok a -> reading_ok b -> earlier a b = true ->
  exists readings n l x, generate_times n nd (mkK sq b 0) readings = Ok (x :: l ++ [x]) /\ Forall reading_ok readings /\ descents (b :: readings) = 2 ^ 14 + 1.
Proof.
  intros nd sq a b SQ RA RB E. destruct (oscillate_run nd a b RA RB E (Z.to_nat (2 ^ 14)) sq SQ) as (l & EL & _ & L1). destruct L1 as (l' & ->); [lia|].
  exists (oscillate (Z.to_nat (2 ^ 14)) a b), (2 * Z.to_nat (2 ^ 14) + 1)%nat, l', (uuid_at nd ((sq + 1) mod 2 ^ 14) (ticks a 0)). split; [|split].
  - rewrite EL. rewrite Z2Nat.id by lia. replace (sq + 2 ^ 14 + 1) with (sq + 1 + 1 * 2 ^ 14) by lia. rewrite Z.mod_add by lia. reflexivity.
  - generalize (Z.to_nat (2 ^ 14)). intros n. induction n as [|n IH]; cbn [oscillate]; auto.
  - rewrite descents_oscillate; [rewrite Z2Nat.id by lia; reflexivity | exact E|].
    destruct (earlier b a) eqn:E2; [|reflexivity]. pose proof (earlier_ticks a b 0 0 RA RB ltac:(lia) ltac:(lia) E). pose proof (earlier_ticks b a 0 0 RB RA ltac:(lia) ltac:(lia) E2). lia.
Qed.
Print Assumptions C50_backward_refuted.
Example C50_distinct_ex : exists l, generate_times 3 [2; 0; 0; 0; 0; 1] (first_clock 0x1234 (1700000000, 999999)) [(1700000000, 999999); (1700000000, 999999); (1700000000, 5)] = Ok l /\ length l = 3%nat /\ NoDup l.
Proof.
  apply C50_distinct_partial; try reflexivity; try (repeat constructor; cbn; lia); try (cbn; lia).
  intros a x b E. apply (f_equal (@length reading)) in E. rewrite !app_length, !repeat_length in E. cbn in E. lia.
Qed.

(** ** C51 *)
Theorem C51_compare : forall u v, longs u -> longs v ->
  compareTo u v = Z.sgn ((mostSigBits u - mostSigBits v) * 2 ^ 64 + (leastSigBits u - leastSigBits v)).
Proof.
  intros [a b] [c d] (A & B) (C & D). unfold is_long, long_min, long_max in *. cbn [mostSigBits leastSigBits] in *. unfold compareTo. cbn [mostSigBits leastSigBits].
  destruct (Z.ltb_spec a c); [rewrite Z.sgn_neg by lia; reflexivity|]. destruct (Z.ltb_spec c a); [rewrite Z.sgn_pos by lia; reflexivity|].
  destruct (Z.ltb_spec b d); [rewrite Z.sgn_neg by lia; reflexivity|]. destruct (Z.ltb_spec d b); [rewrite Z.sgn_pos by lia; reflexivity|].
  replace ((a - c) * 2 ^ 64 + (b - d)) with 0 by lia. reflexivity.
Qed.
Print Assumptions C51_compare.
Theorem C51_total_order : forall u v w,
  (compareTo u v = 0 <-> u = v) /\ compareTo v u = - compareTo u v /\ (compareTo u v <= 0 -> compareTo v w <= 0 -> compareTo u w <= 0).
Proof.
  intros [a b] [c d] [e f]. unfold compareTo. cbn [mostSigBits leastSigBits].
  split; [|split].
  - split; [|intros [= -> ->]; rewrite !Z.ltb_irrefl; reflexivity].
    destruct (Z.ltb_spec a c); [lia|]. destruct (Z.ltb_spec c a); [lia|]. destruct (Z.ltb_spec b d); [lia|]. destruct (Z.ltb_spec d b); [lia|]. intros _. f_equal; lia.
  - destruct (Z.ltb_spec a c), (Z.ltb_spec c a); try lia. destruct (Z.ltb_spec b d), (Z.ltb_spec d b); lia.
  - destruct (Z.ltb_spec a c), (Z.ltb_spec c a), (Z.ltb_spec b d), (Z.ltb_spec d b), (Z.ltb_spec c e), (Z.ltb_spec e c), (Z.ltb_spec d f), (Z.ltb_spec f d), (Z.ltb_spec a e), (Z.ltb_spec e a), (Z.ltb_spec b f), (Z.ltb_spec f b); lia.
Qed.
Print Assumptions C51_total_order.
Theorem C51_equals : forall u v, (equals u v = true <-> u = v) /\ (equals u v = true <-> compareTo u v = 0) /\ (equals u v = true -> hashCode u = hashCode v).
Proof.
  assert (E : forall u v, equals u v = true <-> u = v).
  { intros [a b] [c d]. unfold equals. cbn [mostSigBits leastSigBits]. rewrite andb_true_iff, !Z.eqb_eq. split; [intros (-> & ->); reflexivity | intros [= -> ->]; auto]. }
  intros u v. split; [apply E|]. split; [rewrite E; symmetry; apply (C51_total_order u v u)|]. intros Q. apply E in Q. subst. reflexivity.
Qed.
Print Assumptions C51_equals.
Theorem C51_fields : forall u, version u = rfc_version (number u) /\ node_ u = rfc_node (number u) /\
  clockSequence u = (if rfc_version (number u) =? 1 then rfc_clock_sequence (number u) else -1).
Proof. intros u. split; [apply version_ok|]. split; [apply node_ok | apply clock_ok_]. Qed.
Print Assumptions C51_fields.
Example C51_ex : let u := mkUUID 0x123e4567e89b12d3 (-0x5bbda2e3567f8c00) in longs u /\ version u = 1 /\ clockSequence u = 0x2442 /\ node_ u = 0x5d1ca9807400 /\
  compareTo u (mkUUID 0x123e4567e89b12d3 0) = -1 /\ hashCode u = -144212312.
Proof. cbv zeta. split; [unfold is_long, long_min, long_max; cbn; lia|]. vm_compute. auto. Qed.
(** variant() of a UUID of the IETF variant: undefined by the standard; on the hardware, what bits 2..33 happen to be. *)
Theorem C51_variant_refuted : forall u, longs u -> rfc_ietf (number u) -> variant ISO u = UB BadShift /\ variant HW u = Ok (wrap 32 (leastSigBits u / 4)).
Proof.
  intros u (_ & H) I. assert (Q : Z.shiftr (leastSigBits u) 62 = -2).
  { unfold rfc_ietf in I. rewrite <- (slice_mod _ 62 2 64) in I by lia. rewrite lo_of in I. unfold is_long, long_min, long_max in H. rewrite Z.shiftr_div_pow2 by lia. change (2 ^ 2) with 4 in I. revert H I. generalize (leastSigBits u). clear. intros x H I.
    change (2 ^ 64) with 18446744073709551616 in *. change (2 ^ 63) with 9223372036854775808 in *. change (2 ^ 62) with 4611686018427387904 in *. Z.to_euclidean_division_equations. lia. }
  assert (Q2 : Z.shiftr (leastSigBits u) 63 = -1). { change 63 with (62 + 1). rewrite <- Z.shiftr_shiftr, Q by lia. reflexivity. }
  unfold variant. rewrite Q, Q2. change (ssub ISO 64 64 (-2)) with (@Ok Z 66). change (ssub HW 64 64 (-2)) with (@Ok Z 66). cbn [bind].
  split; [reflexivity|]. change (sshr HW 64 (leastSigBits u) 66) with (@Ok Z (Z.shiftr (leastSigBits u) 2)). cbn [bind]. rewrite Z.land_m1_r, Z.shiftr_div_pow2 by lia. reflexivity.
Qed.
Print Assumptions C51_variant_refuted.
Theorem C51_variant_wrong_refuted : exists u, longs u /\ rfc_variant (number u) = 2 /\ variant HW u = Ok 710941952.
Proof. exists (mkUUID 0x123e4567e89b12d3 (-0x5bbda2e3567f8c00)). split; [unfold is_long, long_min, long_max; cbn; lia|]. vm_compute. split; reflexivity. Qed.
Print Assumptions C51_variant_wrong_refuted.
Theorem C51_variant_ncs_partial : forall u, 0 <= leastSigBits u < 2 ^ 63 -> variant HW u = Ok 0 /\ rfc_variant (number u) = 0.
Proof.
  intros u H. assert (Q : 0 <= Z.shiftr (leastSigBits u) 62 <= 1). { rewrite Z.shiftr_div_pow2 by lia. split; [apply Z.div_pos; lia | apply Z.lt_succ_r, Z.div_lt_upper_bound; lia]. }
  assert (Q2 : Z.shiftr (leastSigBits u) 63 = 0) by (rewrite Z.shiftr_div_pow2 by lia; apply Z.div_small; lia).
  split.
  - unfold variant. rewrite Q2. assert (D : Z.shiftr (leastSigBits u) 62 = 0 \/ Z.shiftr (leastSigBits u) 62 = 1) by lia.
    destruct D as [-> | ->]; [change (ssub HW 64 64 0) with (@Ok Z 64) | change (ssub HW 64 64 1) with (@Ok Z 63)]; cbn [bind]; unfold sshr; cbn; rewrite Z.land_0_r; reflexivity.
  - unfold rfc_variant. pose proof (slice_mod (number u) 63 1 64 ltac:(lia) ltac:(lia) ltac:(lia)) as S1. rewrite lo_of, (Z.mod_small (leastSigBits u)) in S1 by lia. change (2 ^ 1) with 2 in S1. rewrite <- S1.
    rewrite (Z.div_small (leastSigBits u)) by lia. reflexivity.
Qed.
Print Assumptions C51_variant_ncs_partial.

(** ** C67 *)
Theorem C67_lower_partial : forall m N, 0 <= N < 2 ^ 128 -> exists u, fromString m (uuid_text N) = Ok u /\ number u = N.
Proof. intros m N R. destruct (C49_fromString m N R) as (u & E & _ & NU). eauto. Qed.
Print Assumptions C67_lower_partial.
Theorem C67_upper_refuted : exists N u, 0 <= N < 2 ^ 128 /\ fromString HW (map c_toupper (uuid_text N)) = Ok u /\ number u <> N.
Proof. exists 0x123e4567e89b12d3a4425d1ca9807400. eexists. split; [lia|]. split; [vm_compute; reflexivity|]. vm_compute. discriminate. Qed.
Print Assumptions C67_upper_refuted.
(** Texts with a wrong number of dashes: the zero UUID instead of an exception. *)
Lemma count_joined l : l <> [] -> Forall (fun a : str => ~ In 45 a) l -> S (count_occ Z.eq_dec (joined [45] l) 45) = length l.
Proof.
  induction l as [|a l IH]; [congruence|]. intros _ F. inversion F as [|? ? A F']; subst. destruct l as [|b l].
  - cbn [joined length]. f_equal. apply count_occ_not_In. exact A.
  - change (joined [45] (a :: b :: l)) with (a ++ [45] ++ joined [45] (b :: l)). rewrite !count_occ_app. rewrite (proj1 (count_occ_not_In Z.eq_dec a 45) A).
    change (count_occ Z.eq_dec [45] 45) with 1%nat. cbn [Nat.add]. cbn [length]. f_equal. apply IH; [discriminate | exact F'].
Qed.
Theorem C67_malformed_refuted : forall m s, count_occ Z.eq_dec s 45 <> 4%nat -> fromString m s = Ok (mkUUID 0 0).
Proof.
  intros m s C. unfold fromString. destruct (C39_split s [45] (S (length s))) as (l & E & SP); [discriminate | unfold zlen; lia|]. rewrite E. cbn [bind].
  pose proof (C39_split_join _ _ _ SP) as J. pose proof (C39_split_pieces [45] s l ltac:(discriminate) SP) as P.
  assert (F : Forall (fun a : str => ~ In 45 a) l).
  { eapply Forall_impl; [|exact P]. intros a NO IN. apply in_split in IN. destruct IN as (x & y & ->). apply (NO (zlen x)). exists x, y. auto. }
  assert (NE : l <> []) by (intros ->; inversion SP).
  pose proof (count_joined l NE F) as CO. rewrite J in CO.
  destruct l as [|c0 [|c1 [|c2 [|c3 [|c4 [|c5 r]]]]]]; try reflexivity. cbn in CO. exfalso. apply C. lia.
Qed.
Print Assumptions C67_malformed_refuted.
Theorem C67_malformed_group_refuted : exists u, fromString HW (T "xyz-1-2-3-4") = Ok u.
Proof. eexists. vm_compute. reflexivity. Qed.
Print Assumptions C67_malformed_group_refuted.

(** ** C68 *)
Theorem C68_type : forall l, uuid_bytes l -> uuid_type l = rfc_version (number_of l).
Proof. exact type_ok. Qed.
Print Assumptions C68_type.
(** NCS 0, DCE (IETF) 1, Microsoft 2, other 3. *)
Theorem C68_variant : forall l, uuid_bytes l -> let N := number_of l in
  uuid_variant l = if (N / 2 ^ 63) mod 2 =? 0 then 0 else if (N / 2 ^ 62) mod 2 =? 0 then 1 else if (N / 2 ^ 61) mod 2 =? 0 then 2 else 3.
Proof. exact lib_variant_ok. Qed.
Print Assumptions C68_variant.
(** The timestamp counts 100 ns from 15 October 1582, 122192928000000000 of them before 1970. *)
Theorem C68_time : forall l, uuid_bytes l -> let t := (rfc_timestamp (number_of l) - 122192928000000000) mod 2 ^ 64 in uuid_time l = (t / 10 ^ 7, t mod 10 ^ 7 / 10).
Proof. exact lib_time_ok. Qed.
Print Assumptions C68_time.
(** The time of a generated UUID is the reading used, if the adjustment is below 10. *)
Theorem C68_time_generated : forall nd k r rest l k', length nd = 6%nat -> byte_list nd -> 0 <= seq_ k < 2 ^ 14 -> 0 <= adjustment k <= 8 -> reading_ok r ->
  uuid_generate_time nd k (r :: rest) = Ok (l, k', rest) -> uuid_time l = r.
Proof.
  intros nd k r rest l k' L F K A R E. destruct (clock_step nd k r rest K R ltac:(lia)) as (E1 & SQ). rewrite E in E1. apply Ok3_inj in E1. destruct E1 as (-> & _).
  set (sq := if earlier r (last k) then _ else _) in *. set (adj := if earlier r (last k) then _ else _).
  assert (AD : 0 <= adj <= 9) by (unfold adj; destruct (earlier r (last k)), (earlier (last k) r); lia).
  destruct (uuid_at_fields nd sq (ticks r adj) L F SQ) as (LB & _). rewrite lib_time_ok by exact LB.
  destruct (uuid_at_timestamp nd sq (ticks r adj) L F SQ (ticks_range r adj R ltac:(lia))) as (-> & _). replace (ticks r adj + START - START) with (ticks r adj) by lia.
  destruct r as [s u]. destruct R as (R1 & R2). cbn [fst snd] in *. unfold ticks. cbn [fst snd]. clear - R1 R2 AD.
  change (10 ^ 11) with 100000000000 in *. change (10 ^ 6) with 1000000 in *. change (10 ^ 7) with 10000000. rewrite Z.mod_small by (change (2 ^ 64) with 18446744073709551616; lia).
  f_equal; [symmetry; apply Z.div_unique with (u * 10 + adj); lia|]. rewrite <- (Z.mod_unique (s * 10000000 + u * 10 + adj) 10000000 s (u * 10 + adj)) by lia. symmetry. apply Z.div_unique with adj; lia.
Qed.
Print Assumptions C68_time_generated.
Theorem C68_compare : forall a b, uuid_bytes a -> uuid_bytes b -> uuid_compare a b = Z.sgn (number_of a - number_of b).
Proof. exact compare_sgn. Qed.
Print Assumptions C68_compare.
Theorem C68_is_null : forall l, uuid_bytes l -> uuid_is_null l = if number_of l =? 0 then 1 else 0.
Proof. intros l (_ & F). apply is_null_ok. exact F. Qed.
Print Assumptions C68_is_null.
Example C68_ex : let l := [0x12; 0x3e; 0x45; 0x67; 0xe8; 0x9b; 0x12; 0xd3; 0xa4; 0x42; 0x5d; 0x1c; 0xa9; 0x80; 0x74; 0] in
  uuid_bytes l /\ uuid_type l = 1 /\ uuid_variant l = 1 /\ uuid_is_null l = 0 /\ uuid_is_null (repeat 0 16) = 1 /\ uuid_compare l (repeat 0 16) = 1.
Proof. cbv zeta. split; [split; [reflexivity | repeat constructor; discriminate]|]. vm_compute. auto. Qed.
