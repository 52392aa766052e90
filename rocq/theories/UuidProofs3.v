(** Proofs about UUIDs: fields, generation, clock. *)

From Coq Require Import ZArith List Lia Bool.
From Verif Require Import Base Bits CppText TextSpec TextLemmas LongProofs2 UuidSpec UuidLibModel UuidModel UuidProofs UuidLibProofs UuidLibProofs2.
Import ListNotations.
Open Scope Z_scope.
Local Notation length := List.length.

(** ** The number and its fields *)
Definition fields_number (tl tm th cs nd : Z) : Z := (((tl * 2 ^ 16 + tm) * 2 ^ 16 + th) * 2 ^ 16 + cs) * 2 ^ 48 + nd.
Lemma fields_div tl tm th cs nd : 0 <= tl < 2 ^ 32 -> 0 <= tm < 2 ^ 16 -> 0 <= th < 2 ^ 16 -> 0 <= cs < 2 ^ 16 -> 0 <= nd < 2 ^ 48 ->
  let N := fields_number tl tm th cs nd in
  N / 2 ^ 96 = tl /\ (N / 2 ^ 80) mod 2 ^ 16 = tm /\ (N / 2 ^ 64) mod 2 ^ 16 = th /\ (N / 2 ^ 48) mod 2 ^ 16 = cs /\ N mod 2 ^ 48 = nd /\ 0 <= N < 2 ^ 128.
Proof.
  intros A0 A1 A2 A3 A4 N. unfold N, fields_number.
  assert (D48 : forall a, (a * 2 ^ 48 + nd) / 2 ^ 48 = a) by (intros; apply div_low; lia).
  assert (M : forall a b, 0 <= b < 2 ^ 16 -> (a * 2 ^ 16 + b) mod 2 ^ 16 = b) by (intros a b B; rewrite Z.add_comm, Z.mod_add, Z.mod_small by lia; reflexivity).
  change (2 ^ 96) with (2 ^ 48 * (2 ^ 16 * (2 ^ 16 * 2 ^ 16))). change (2 ^ 80) with (2 ^ 48 * (2 ^ 16 * 2 ^ 16)). change (2 ^ 64) with (2 ^ 48 * 2 ^ 16).
  rewrite <- !Z.div_div by lia. rewrite !D48. rewrite !(div_low _ (2 ^ 16)) by lia. rewrite !M by lia.
  rewrite (Z.add_comm (_ * 2 ^ 48)), Z.mod_add, Z.mod_small by lia.
  change (2 ^ 128) with 340282366920938463463374607431768211456. change (2 ^ 32) with 4294967296 in *. change (2 ^ 16) with 65536 in *. change (2 ^ 48) with 281474976710656 in *. repeat split; lia.
Qed.
Lemma lib_fields l : uuid_bytes l -> let u := uuid_unpack l in let N := number_of l in
  N / 2 ^ 96 = time_low u /\ (N / 2 ^ 80) mod 2 ^ 16 = time_mid u /\ (N / 2 ^ 64) mod 2 ^ 16 = time_hi_and_version u /\
  (N / 2 ^ 48) mod 2 ^ 16 = clock_seq u /\ N mod 2 ^ 48 = number_of (node u) /\ 0 <= N < 2 ^ 128.
Proof.
  intros B u N. destruct (number_fields l B) as (E & R). destruct (unpack_ok l B) as (A0 & A1 & A2 & A3 & _).
  unfold N. rewrite E. unfold u. apply (fields_div _ _ _ _ _ A0 A1 A2 A3 R).
Qed.
Lemma halves N : 0 <= N < 2 ^ 128 -> exists u, half_ok u /\ num u = N.
Proof.
  intros R. exists (mkUUID (wrap 64 (N / 2 ^ 64)) (wrap 64 N)). split.
  - split; cbn [mostSigBits leastSigBits]; [pose proof (wrap_range 64 (N / 2 ^ 64)) as W | pose proof (wrap_range 64 N) as W]; unfold is_long, long_min, long_max; unfold in_s, smin, smax in W; lia.
  - unfold num, number_of_halves. cbn [mostSigBits leastSigBits]. rewrite !wrap_mod by lia. change (2 ^ 128) with (2 ^ 64 * 2 ^ 64) in R.
    rewrite (Z.mod_small (N / 2 ^ 64)) by (split; [apply Z.div_pos; lia | apply Z.div_lt_upper_bound; lia]). rewrite (Z.div_mod N (2 ^ 64)) at 3 by lia. lia.
Qed.
Lemma timeUUID_ok m l : uuid_bytes l -> exists u, timeUUID m l = Ok u /\ half_ok u /\ num u = number_of l.
Proof.
  intros B. unfold timeUUID. rewrite unparse_ok by exact B. destruct (lib_fields l B) as (_ & _ & _ & _ & _ & R). destruct (halves _ R) as (u & H & E).
  exists u. rewrite <- E. rewrite fromString_ok by exact H. auto.
Qed.

Lemma version_field N : (N / 2 ^ 64) mod 2 ^ 16 / 2 ^ 12 = (N / 2 ^ 76) mod 16.
Proof.
  change (2 ^ 16) with (2 ^ 12 * 2 ^ 4). rewrite Z.rem_mul_r by lia. rewrite Z.div_div by lia. change (2 ^ 64 * 2 ^ 12) with (2 ^ 76).
  rewrite (Z.mul_comm (2 ^ 12)), Z.add_comm, div_low by (apply Z.mod_pos_bound; lia). reflexivity.
Qed.
Lemma ietf_field N : (N / 2 ^ 48) mod 2 ^ 16 / 2 ^ 14 = (N / 2 ^ 62) mod 4.
Proof.
  change (2 ^ 16) with (2 ^ 14 * 2 ^ 2). rewrite Z.rem_mul_r by lia. rewrite Z.div_div by lia. change (2 ^ 48 * 2 ^ 14) with (2 ^ 62).
  rewrite (Z.mul_comm (2 ^ 14)), Z.add_comm, div_low by (apply Z.mod_pos_bound; lia). reflexivity.
Qed.
Lemma clock_field N : (N / 2 ^ 48) mod 2 ^ 16 mod 2 ^ 14 = (N / 2 ^ 48) mod 2 ^ 14.
Proof. change (2 ^ 16) with (2 ^ 14 * 2 ^ 2). rewrite Z.rem_mul_r by lia. rewrite Z.mul_comm, Z.mod_add, Z.mod_mod by lia. reflexivity. Qed.
Lemma time_field N : (N / 2 ^ 64) mod 2 ^ 16 mod 2 ^ 12 = (N / 2 ^ 64) mod 2 ^ 12.
Proof. change (2 ^ 16) with (2 ^ 12 * 2 ^ 4). rewrite Z.rem_mul_r by lia. rewrite Z.mul_comm, Z.mod_add, Z.mod_mod by lia. reflexivity. Qed.
Lemma tagged x n t : 0 <= n -> 0 <= x -> Z.lor (Z.land x (Z.ones n)) (t * 2 ^ n) = t * 2 ^ n + x mod 2 ^ n.
Proof.
  intros N X. rewrite Z.land_ones by lia. rewrite Z.lor_comm, <- !Z.shiftl_mul_pow2 by lia. rewrite lor_shiftl_add by (try lia; apply Z.mod_pos_bound; apply Z.pow_pos_nonneg; lia). rewrite Z.shiftl_mul_pow2 by lia. reflexivity.
Qed.

(** ** Random UUIDs *)
Lemma random_fields buf : uuid_bytes buf -> let u := uuid_unpack buf in let l := uuid_generate_random buf in
  uuid_bytes l /\ number_of l = fields_number (time_low u) (time_mid u) (4 * 2 ^ 12 + time_hi_and_version u mod 2 ^ 12) (2 * 2 ^ 14 + clock_seq u mod 2 ^ 14) (number_of (node u)).
Proof.
  intros B u l. destruct (unpack_ok buf B) as (A0 & A1 & A2 & A3 & A4 & A5). fold u in A0, A1, A2, A3, A4, A5.
  set (v := mkU (time_low u) (time_mid u) (4 * 2 ^ 12 + time_hi_and_version u mod 2 ^ 12) (2 * 2 ^ 14 + clock_seq u mod 2 ^ 14) (node u)).
  assert (E : l = uuid_pack v).
  { unfold l, uuid_generate_random. fold u. unfold v. f_equal. f_equal.
    - change 0x0FFF with (Z.ones 12). change 0x4000 with (4 * 2 ^ 12). apply tagged; lia.
    - change 0x3FFF with (Z.ones 14). change 0x8000 with (2 * 2 ^ 14). apply tagged; lia. }
  pose proof (Z.mod_pos_bound (time_hi_and_version u) (2 ^ 12) ltac:(lia)). pose proof (Z.mod_pos_bound (clock_seq u) (2 ^ 14) ltac:(lia)).
  assert (V : fields_ok v). { unfold fields_ok, v. cbn [time_low time_mid time_hi_and_version clock_seq node]. change (2 ^ 12) with 4096 in *. change (2 ^ 14) with 16384 in *. change (2 ^ 16) with 65536 in *. repeat split; try lia; assumption. }
  rewrite E. split; [apply pack_ok; exact V|]. destruct (number_fields _ (pack_ok v V)) as (NE & _). rewrite unpack_pack in NE by exact V. exact NE.
Qed.

(** ** The clock *)
Definition clock_ok (k : clock) : Prop := 0 <= seq_ k < 2 ^ 14.
Definition ticks (r : reading) (adj : Z) : Z := fst r * 10 ^ 7 + snd r * 10 + adj.
Definition START : Z := 122192928000000000.
Definition uuid_at (nd : list Z) (sq t : Z) : list Z :=
  uuid_pack (mkU ((t + START) mod 2 ^ 32) ((t + START) / 2 ^ 32 mod 2 ^ 16) (2 ^ 12 + (t + START) / 2 ^ 48 mod 2 ^ 12) (2 ^ 15 + sq) nd).
Lemma start_offset : OFFSET = START.
Proof. reflexivity. Qed.

Lemma next_seq k : clock_ok k -> Z.land (seq_ k + 1) 0x3FFF = (seq_ k + 1) mod 2 ^ 14.
Proof. intros. change 0x3FFF with (Z.ones 14). apply Z.land_ones. lia. Qed.

Lemma reg_ok s u a : reading_ok (s, u) -> 0 <= a <= 10 -> uwrap 64 (uwrap 64 (uwrap 64 (u * 10 + a) + uwrap 64 (s * 10000000)) + OFFSET) = ticks (s, u) a + START.
Proof.
  intros (R1 & R2) A. rewrite start_offset. unfold uwrap, ticks, START. cbn [fst snd] in *. change (10 ^ 11) with 100000000000 in R1. change (10 ^ 6) with 1000000 in R2. change (10 ^ 7) with 10000000.
  change (2 ^ 64) with 18446744073709551616. rewrite (Z.mod_small (u * 10 + a)), (Z.mod_small (s * 10000000)) by lia. rewrite (Z.mod_small (u * 10 + a + s * 10000000)) by lia. rewrite Z.mod_small by lia. lia.
Qed.
(** One call, [r] being the reading it uses. *)
Lemma get_clock_step k r rest : clock_ok k -> reading_ok r -> 0 <= adjustment k <= 9 ->
  let sq := if earlier r (last k) then (seq_ k + 1) mod 2 ^ 14 else seq_ k in
  let adj := if earlier r (last k) then 0 else if earlier (last k) r then 0 else adjustment k + 1 in
  get_clock k (r :: rest) = Ok (ticks r adj + START, mkK sq r adj, rest) /\ 0 <= sq < 2 ^ 14.
Proof.
  intros K (R1 & R2) AD sq adj. destruct r as [s u]. cbn [fst snd] in *. unfold clock_ok in K.
  assert (SQ : 0 <= sq < 2 ^ 14) by (unfold sq; destruct (earlier _ _); [apply Z.mod_pos_bound; lia | exact K]).
  split; [|exact SQ].
    assert (REG : forall a, 0 <= a <= 10 -> uwrap 64 (uwrap 64 (uwrap 64 (u * 10 + a) + uwrap 64 (s * 10000000)) + OFFSET) = ticks (s, u) a + START) by (intros; apply reg_ok; [split; assumption | assumption]).
    cbn [get_clock]. unfold sq, adj, earlier. destruct (last k) as [ls lu] eqn:LK. cbn [fst snd].
    destruct (Z.ltb_spec s ls); cbn [orb]; [rewrite REG, next_seq by (try exact K; lia); reflexivity|].
    destruct (Z.eqb_spec s ls) as [->|NE]; cbn [andb orb].
    - rewrite Z.ltb_irrefl, Z.eqb_refl. cbn [orb andb]. destruct (Z.ltb_spec u lu); [rewrite REG, next_seq by (try exact K; lia); reflexivity|].
      destruct (Z.eqb_spec u lu) as [->|NU].
      + rewrite Z.ltb_irrefl. destruct (Z.leb_spec 10 (adjustment k)); [lia|]. rewrite REG by lia. reflexivity.
      + destruct (Z.ltb_spec lu u); [|lia]. rewrite REG by lia. reflexivity.
    - destruct (Z.ltb_spec ls s); [|lia]. cbn [orb]. rewrite REG by lia. reflexivity.
Qed.
Lemma clock_step nd k r rest : clock_ok k -> reading_ok r -> 0 <= adjustment k <= 9 ->
  let sq := if earlier r (last k) then (seq_ k + 1) mod 2 ^ 14 else seq_ k in
  let adj := if earlier r (last k) then 0 else if earlier (last k) r then 0 else adjustment k + 1 in
  uuid_generate_time nd k (r :: rest) = Ok (uuid_at nd sq (ticks r adj), mkK sq r adj, rest) /\ 0 <= sq < 2 ^ 14.
Proof.
  intros K (R1 & R2) AD sq adj. destruct r as [s u]. cbn [fst snd] in *. unfold clock_ok in K.
  assert (SQ : 0 <= sq < 2 ^ 14) by (unfold sq; destruct (earlier _ _); [apply Z.mod_pos_bound; lia | exact K]).
  split; [|exact SQ].
  destruct (get_clock_step k (s, u) rest K (conj R1 R2) AD) as (G & _). fold sq adj in G.
  unfold uuid_generate_time. unfold reading in *. rewrite G. cbn [bind seq_]. f_equal. f_equal. f_equal. unfold uuid_at. f_equal.
  set (t := ticks (s, u) adj + START). assert (T : 0 <= t).
  { unfold t, ticks, START. cbn [fst snd]. assert (0 <= adj) by (unfold adj; repeat destruct (earlier _ _); lia). lia. }
  unfold uwrap. rewrite Z.shiftr_div_pow2 by lia. f_equal.
  - rewrite Z.shiftr_div_pow2, Z.div_div by lia. change (2 ^ 32 * 2 ^ 16) with (2 ^ 48). change 0x0FFF with (Z.ones 12). change 0x1000 with (1 * 2 ^ 12). rewrite tagged by (try lia; apply Z.div_pos; lia). lia.
  - rewrite Z.lor_comm. change 0x8000 with (1 * 2 ^ 15). rewrite <- Z.shiftl_mul_pow2 by lia. rewrite lor_shiftl_add by lia. lia.
Qed.

Lemma uuid_at_fields nd sq t : length nd = 6%nat -> Forall (fun b => 0 <= b < 256) nd -> 0 <= sq < 2 ^ 14 ->
  uuid_bytes (uuid_at nd sq t) /\
  number_of (uuid_at nd sq t) = fields_number ((t + START) mod 2 ^ 32) ((t + START) / 2 ^ 32 mod 2 ^ 16) (2 ^ 12 + (t + START) / 2 ^ 48 mod 2 ^ 12) (2 ^ 15 + sq) (number_of nd) /\
  uuid_unpack (uuid_at nd sq t) = mkU ((t + START) mod 2 ^ 32) ((t + START) / 2 ^ 32 mod 2 ^ 16) (2 ^ 12 + (t + START) / 2 ^ 48 mod 2 ^ 12) (2 ^ 15 + sq) nd.
Proof.
  intros L F SQ. unfold uuid_at. set (v := mkU _ _ _ _ nd).
  assert (V : fields_ok v).
  { unfold fields_ok, v. cbn [time_low time_mid time_hi_and_version clock_seq node].
    pose proof (Z.mod_pos_bound (t + START) (2 ^ 32) ltac:(lia)). pose proof (Z.mod_pos_bound ((t + START) / 2 ^ 32) (2 ^ 16) ltac:(lia)). pose proof (Z.mod_pos_bound ((t + START) / 2 ^ 48) (2 ^ 12) ltac:(lia)).
    change (2 ^ 12) with 4096 in *. change (2 ^ 14) with 16384 in *. change (2 ^ 15) with 32768. change (2 ^ 16) with 65536 in *. repeat split; try lia; assumption. }
  split; [apply pack_ok; exact V|]. rewrite unpack_pack by exact V. split; [|reflexivity].
  destruct (number_fields _ (pack_ok v V)) as (NE & _). rewrite unpack_pack in NE by exact V. exact NE.
Qed.
Lemma uuid_at_inj nd s1 t1 s2 t2 : length nd = 6%nat -> Forall (fun b => 0 <= b < 256) nd -> 0 <= s1 < 2 ^ 14 -> 0 <= s2 < 2 ^ 14 ->
  0 <= t1 + START < 2 ^ 60 -> 0 <= t2 + START < 2 ^ 60 -> uuid_at nd s1 t1 = uuid_at nd s2 t2 -> s1 = s2 /\ t1 = t2.
Proof.
  intros L F S1 S2 T1 T2 E. destruct (uuid_at_fields nd s1 t1 L F S1) as (_ & _ & U1). destruct (uuid_at_fields nd s2 t2 L F S2) as (_ & _ & U2).
  rewrite E in U1. rewrite U1 in U2. pose proof (f_equal time_low U2) as E1. pose proof (f_equal time_mid U2) as E2. pose proof (f_equal time_hi_and_version U2) as E3. pose proof (f_equal clock_seq U2) as E4. cbn [time_low time_mid time_hi_and_version clock_seq] in E1, E2, E3, E4. clear U1 U2. split; [lia|].
  assert (D : forall x, 0 <= x < 2 ^ 60 -> x = (x / 2 ^ 48 mod 2 ^ 12) * 2 ^ 48 + (x / 2 ^ 32 mod 2 ^ 16) * 2 ^ 32 + x mod 2 ^ 32).
  { intros x X. assert (A : 0 <= x / 2 ^ 48 < 2 ^ 12) by (split; [apply Z.div_pos; lia | apply Z.div_lt_upper_bound; [lia|]; change (2 ^ 48 * 2 ^ 12) with (2 ^ 60); lia]).
    rewrite (Z.mod_small (x / 2 ^ 48)) by exact A. change (2 ^ 48) with (2 ^ 32 * 2 ^ 16). rewrite <- Z.div_div by lia.
    pose proof (Z.div_mod x (2 ^ 32) ltac:(lia)). pose proof (Z.div_mod (x / 2 ^ 32) (2 ^ 16) ltac:(lia)). lia. }
  pose proof (D _ T1) as D1. pose proof (D _ T2) as D2. lia.
Qed.

(** ** Distinctness *)
Lemma no_run_suffix n a l : no_run n (a ++ l) -> no_run n l.
Proof. intros H a' x b E. apply (H (a ++ a') x b). rewrite E, app_assoc. reflexivity. Qed.
Lemma earlier_total a b : earlier a b = false -> earlier b a = false -> a = b.
Proof.
  destruct a as [a1 a2], b as [b1 b2]. unfold earlier. cbn [fst snd]. intros A B.
  destruct (Z.ltb_spec a1 b1), (Z.ltb_spec b1 a1); try discriminate. assert (a1 = b1) as -> by lia. rewrite Z.eqb_refl in A, B. cbn in A, B.
  apply Z.ltb_ge in A, B. f_equal. lia.
Qed.
Lemma earlier_ticks a b x y : reading_ok a -> reading_ok b -> 0 <= x <= 9 -> 0 <= y -> earlier a b = true -> ticks a x < ticks b y.
Proof.
  destruct a as [a1 a2], b as [b1 b2]. unfold reading_ok, earlier, ticks. cbn [fst snd]. intros (A1 & A2) (B1 & B2) X Y E.
  apply orb_prop in E. change (10 ^ 7) with 10000000. change (10 ^ 6) with 1000000 in *. destruct E as [E|E]; [apply Z.ltb_lt in E; lia|].
  apply andb_prop in E. destruct E as (E1 & E2). apply Z.eqb_eq in E1. apply Z.ltb_lt in E2. lia.
Qed.
Lemma ticks_range r a : reading_ok r -> 0 <= a <= 10 -> 0 <= ticks r a + START < 2 ^ 60.
Proof. destruct r as [s u]. unfold reading_ok, ticks, START. cbn [fst snd]. change (10 ^ 11) with 100000000000. change (10 ^ 6) with 1000000. change (10 ^ 7) with 10000000. change (2 ^ 60) with 1152921504606846976. lia. Qed.
Lemma descents_nonneg l : 0 <= descents l.
Proof. induction l as [|a [|b t] IH]; cbn [descents] in *; try lia. destruct (earlier b a); lia. Qed.
Lemma repeat_snoc {A} (x : A) n : repeat x n ++ [x] = x :: repeat x n.
Proof. induction n as [|n IH]; cbn [repeat app]; [reflexivity|]. rewrite IH. reflexivity. Qed.
Lemma adj_bound k rs : 0 <= adjustment k -> no_run 11 (repeat (last k) (Z.to_nat (adjustment k) + 1) ++ rs) -> adjustment k <= 9.
Proof.
  intros A H. destruct (Z_le_gt_dec (adjustment k) 9) as [|G]; [assumption|]. exfalso.
  apply (H [] (last k) (repeat (last k) (Z.to_nat (adjustment k) - 10) ++ rs)). cbn [app]. rewrite app_assoc, <- repeat_app. do 2 f_equal. lia.
Qed.

Definition step_seq (k : clock) (r : reading) : Z := if earlier r (last k) then (seq_ k + 1) mod 2 ^ 14 else seq_ k.
Definition step_adj (k : clock) (r : reading) : Z := if earlier r (last k) then 0 else if earlier (last k) r then 0 else adjustment k + 1.
Lemma step_run k r rs : 0 <= adjustment k -> no_run 11 (repeat (last k) (Z.to_nat (adjustment k) + 1) ++ r :: rs) ->
  no_run 11 (repeat r (Z.to_nat (step_adj k r) + 1) ++ rs).
Proof.
  intros A H. unfold step_adj.
  assert (D : no_run 11 (repeat r (Z.to_nat 0 + 1) ++ rs)) by (exact (no_run_suffix _ _ _ H)).
  destruct (earlier r (last k)) eqn:E1; [exact D|]. destruct (earlier (last k) r) eqn:E2; [exact D|].
  pose proof (earlier_total _ _ E1 E2) as ->. replace (Z.to_nat (adjustment k + 1) + 1)%nat with (S (Z.to_nat (adjustment k) + 1)) by lia.
  cbn [repeat]. rewrite <- repeat_snoc, <- app_assoc. exact H.
Qed.

Lemma times_run nd : length nd = 6%nat -> Forall (fun b => 0 <= b < 256) nd ->
  forall n rs k, clock_ok k -> 0 <= adjustment k -> Forall reading_ok (last k :: rs) ->
  no_run 11 (repeat (last k) (Z.to_nat (adjustment k) + 1) ++ rs) -> descents (last k :: rs) < 2 ^ 14 -> (n <= length rs)%nat ->
  exists l, generate_times n nd k rs = Ok l /\ length l = n /\ NoDup l /\
  Forall (fun x => exists e t, x = uuid_at nd ((seq_ k + e) mod 2 ^ 14) t /\ 0 <= e <= descents (last k :: rs) /\
    (e = 0 -> ticks (last k) (adjustment k) < t) /\ 0 <= t + START < 2 ^ 60) l.
Proof.
  intros ND NF. induction n as [|n IH]; intros rs k K A R H D L.
  - exists []. cbn. repeat split; constructor.
  - destruct rs as [|r rs]; [cbn in L; lia|]. pose proof (adj_bound k _ A H) as A9. inversion R as [|? ? R1 R2]; subst. inversion R2 as [|? ? R3 R4]; subst.
    destruct (clock_step nd k r rs K R3 ltac:(lia)) as (E & SQ). fold (step_seq k r) (step_adj k r) in E, SQ.
    assert (AD : 0 <= step_adj k r) by (unfold step_adj; destruct (earlier r (last k)), (earlier (last k) r); lia).
    assert (DD : descents (last k :: r :: rs) = (if earlier r (last k) then 1 else 0) + descents (r :: rs)) by reflexivity.
    pose proof (descents_nonneg (r :: rs)) as DN.
    pose proof (step_run k r rs A H) as H'. pose proof (adj_bound (mkK (step_seq k r) r (step_adj k r)) rs AD H') as A9'. cbn [adjustment] in A9'.
    destruct (IH rs (mkK (step_seq k r) r (step_adj k r)) SQ AD R2 H') as (l & EL & LL & NDL & F); [cbn [last]; rewrite DD in D; destruct (earlier r (last k)); lia | cbn in L; lia |].
    cbn [seq_ last adjustment] in *.
    exists (uuid_at nd (step_seq k r) (ticks r (step_adj k r)) :: l). cbn [generate_times]. rewrite E. cbn [bind]. rewrite EL. cbn [bind].
    split; [reflexivity|]. split; [cbn; lia|].
    assert (TR : 0 <= ticks r (step_adj k r) + START < 2 ^ 60) by (apply ticks_range; [exact R3 | lia]).
    split.
    + constructor; [|exact NDL]. intros IN. rewrite Forall_forall in F. destruct (F _ IN) as (e & t & EX & ER & ET & TT).
      apply uuid_at_inj in EX; try assumption; [|apply Z.mod_pos_bound; lia]. destruct EX as (ES & E2).
      assert (e <> 0) by (intros ->; specialize (ET eq_refl); lia).
      assert (EE : 0 < e < 2 ^ 14) by (rewrite DD in D; destruct (earlier r (last k)); lia).
      clear - ES EE SQ. change (2 ^ 14) with 16384 in *. Z.to_euclidean_division_equations. lia.
    + constructor.
      * unfold step_seq, step_adj. destruct (earlier r (last k)) eqn:E1.
        -- exists 1, (ticks r 0). split; [reflexivity|]. split; [rewrite DD; lia|]. split; [lia|]. apply ticks_range; [exact R3 | lia].
        -- exists 0. eexists. rewrite Z.add_0_r, Z.mod_small by exact K. split; [reflexivity|]. split; [rewrite DD; lia|]. split.
           ++ intros _. destruct (earlier (last k) r) eqn:E2; [apply earlier_ticks; try assumption; lia|]. pose proof (earlier_total _ _ E1 E2) as ->. unfold ticks. lia.
           ++ unfold step_adj in TR. rewrite E1 in TR. exact TR.
      * eapply Forall_impl; [|exact F]. intros x (e & t & EX & ER & ET & TT). rewrite DD. unfold step_seq, step_adj in *. destruct (earlier r (last k)) eqn:E1.
        -- exists (1 + e), t. split; [|split; [lia|split; [lia|exact TT]]]. rewrite EX. f_equal. rewrite Z.add_mod_idemp_l by lia. f_equal. lia.
        -- exists e, t. split; [exact EX|]. split; [lia|]. split; [|exact TT]. intros E0. specialize (ET E0). eapply Z.lt_trans; [|exact ET].
           destruct (earlier (last k) r) eqn:E2; [apply earlier_ticks; try assumption; lia|]. pose proof (earlier_total _ _ E1 E2) as ->. unfold ticks. lia.
Qed.

(** ** A clock that oscillates *)
Fixpoint oscillate (n : nat) (a b : reading) : list reading := match n with O => [a] | S j => a :: b :: oscillate j a b end.
Lemma oscillate_run nd a b : reading_ok a -> reading_ok b -> earlier a b = true -> forall n sq, 0 <= sq < 2 ^ 14 ->
  exists l, generate_times (2 * n + 1) nd (mkK sq b 0) (oscillate n a b) = Ok (l ++ [uuid_at nd ((sq + Z.of_nat n + 1) mod 2 ^ 14) (ticks a 0)]) /\ length l = (2 * n)%nat /\
  ((0 < n)%nat -> exists l', l = uuid_at nd ((sq + 1) mod 2 ^ 14) (ticks a 0) :: l').
Proof.
  intros RA RB E. assert (NE : earlier b a = false).
  { destruct (earlier b a) eqn:E2; [|reflexivity]. pose proof (earlier_ticks a b 0 0 RA RB ltac:(lia) ltac:(lia) E). pose proof (earlier_ticks b a 0 0 RB RA ltac:(lia) ltac:(lia) E2). lia. }
  induction n as [|n IH]; intros sq SQ.
  - exists []. cbn [oscillate Nat.mul Nat.add generate_times]. destruct (clock_step nd (mkK sq b 0) a [] SQ RA ltac:(cbn; lia)) as (E1 & _). cbn [last seq_ adjustment] in E1. rewrite E in E1. rewrite E1. cbn [bind app].
    split; [|split; [reflexivity|lia]]. do 4 f_equal. lia.
  - assert (S1 : 0 <= (sq + 1) mod 2 ^ 14 < 2 ^ 14) by (apply Z.mod_pos_bound; lia).
    destruct (IH _ S1) as (l & EL & LL & _). replace (2 * S n + 1)%nat with (S (S (2 * n + 1))) by lia. cbn [oscillate generate_times].
    destruct (clock_step nd (mkK sq b 0) a (b :: oscillate n a b) SQ RA ltac:(cbn; lia)) as (E1 & _). cbn [last seq_ adjustment] in E1. rewrite E in E1. rewrite E1. cbn [bind].
    destruct (clock_step nd (mkK ((sq + 1) mod 2 ^ 14) a 0) b (oscillate n a b) S1 RB ltac:(cbn; lia)) as (E2 & _). cbn [last seq_ adjustment] in E2. rewrite NE, E in E2. rewrite E2. cbn [bind].
    rewrite EL. cbn [bind]. exists (uuid_at nd ((sq + 1) mod 2 ^ 14) (ticks a 0) :: uuid_at nd ((sq + 1) mod 2 ^ 14) (ticks b 0) :: l).
    split; [|split; [cbn; lia | eauto]]. cbn [app]. do 5 f_equal. rewrite Nat2Z.inj_succ.
    replace ((sq + 1) mod 2 ^ 14 + Z.of_nat n + 1) with ((sq + 1) mod 2 ^ 14 + (Z.of_nat n + 1)) by lia. rewrite Z.add_mod_idemp_l by lia. replace (sq + 1 + (Z.of_nat n + 1)) with (sq + Z.succ (Z.of_nat n) + 1) by lia. reflexivity.
Qed.
Lemma descents_oscillate a b n : earlier a b = true -> earlier b a = false -> descents (b :: oscillate n a b) = Z.of_nat n + 1.
Proof.
  intros E NE. induction n as [|n IH]; [cbn; rewrite E; reflexivity|]. change (descents (b :: oscillate (S n) a b)) with ((if earlier a b then 1 else 0) + ((if earlier b a then 1 else 0) + descents (b :: oscillate n a b))).
  rewrite E, NE, IH. lia.
Qed.

(** ** Accessors *)
Lemma land_low x n : 0 <= n -> Z.land x (2 ^ n - 1) = x mod 2 ^ n.
Proof. intros. rewrite <- Z.land_ones by lia. rewrite Z.ones_equiv, <- Z.sub_1_r. reflexivity. Qed.
Lemma hi_of u : number_of_halves (mostSigBits u) (leastSigBits u) / 2 ^ 64 = mostSigBits u mod 2 ^ 64.
Proof. unfold number_of_halves. apply div_low. apply Z.mod_pos_bound. lia. Qed.
Lemma lo_of u : number_of_halves (mostSigBits u) (leastSigBits u) mod 2 ^ 64 = leastSigBits u mod 2 ^ 64.
Proof. unfold number_of_halves. rewrite Z.add_comm, Z.mod_add by lia. apply Z.mod_mod. lia. Qed.
(** Bits [k .. k+n) of a number depend only on its low [k+n] bits. *)
Lemma slice_mod x k n w : 0 <= k -> 0 <= n -> k + n <= w -> (x mod 2 ^ w / 2 ^ k) mod 2 ^ n = (x / 2 ^ k) mod 2 ^ n.
Proof.
  intros K N W. replace w with (k + (w - k)) by lia. rewrite Z.pow_add_r by lia. rewrite Z.rem_mul_r by (apply Z.pow_nonzero || apply Z.pow_pos_nonneg; lia).
  rewrite (Z.mul_comm (2 ^ k) (_ mod _)), Z.add_comm, div_low by (apply Z.mod_pos_bound, Z.pow_pos_nonneg; lia).
  replace (w - k) with (n + (w - k - n)) by lia. rewrite Z.pow_add_r by lia. rewrite Z.rem_mul_r by (apply Z.pow_nonzero || apply Z.pow_pos_nonneg; lia).
  rewrite Z.mul_comm, Z.mod_add by (apply Z.pow_nonzero; lia). apply Z.mod_mod. apply Z.pow_nonzero; lia.
Qed.
Lemma wrap_small x : 0 <= x < 2 ^ 31 -> wrap 32 x = x.
Proof. intros. apply wrap_id; [lia|]. unfold in_s, smin, smax. lia. Qed.
Lemma version_ok u : version u = rfc_version (num u).
Proof.
  unfold version, rfc_version, num. change 0x0f with (2 ^ 4 - 1). rewrite land_low, Z.shiftr_div_pow2 by lia.
  change (2 ^ 76) with (2 ^ 64 * 2 ^ 12). rewrite <- Z.div_div, hi_of by lia. change 16 with (2 ^ 4). rewrite slice_mod by lia.
  apply wrap_small. pose proof (Z.mod_pos_bound (mostSigBits u / 2 ^ 12) (2 ^ 4) ltac:(lia)). lia.
Qed.
Lemma node_ok u : node_ u = rfc_node (num u).
Proof.
  unfold node_, rfc_node, num. change 0x0000FFFFFFFFFFFF with (2 ^ 48 - 1). rewrite land_low by lia.
  pose proof (slice_mod (number_of_halves (mostSigBits u) (leastSigBits u)) 0 48 64 ltac:(lia) ltac:(lia) ltac:(lia)) as E. rewrite lo_of in E.
  rewrite slice_mod in E by lia. rewrite Z.pow_0_r, !Z.div_1_r in E. exact E.
Qed.
Lemma clock_ok_ u : clockSequence u = if rfc_version (num u) =? 1 then rfc_clock_sequence (num u) else -1.
Proof.
  unfold clockSequence. rewrite version_ok. destruct (_ =? 1); [|reflexivity]. cbn [negb]. unfold rfc_clock_sequence, num.
  rewrite Z.shiftr_land. change (Z.shiftr 0x3FFF000000000000 48) with (2 ^ 14 - 1). rewrite land_low, Z.shiftr_div_pow2 by lia.
  rewrite wrap_small by (pose proof (Z.mod_pos_bound (leastSigBits u / 2 ^ 48) (2 ^ 14) ltac:(lia)); lia).
  rewrite <- (slice_mod (leastSigBits u) 48 14 64) by lia. rewrite <- lo_of, slice_mod by lia. reflexivity.
Qed.

Lemma lex_sgn x y a b p : 0 <= a < p -> 0 <= b < p -> Z.sgn (x * p + a - (y * p + b)) = if x =? y then Z.sgn (a - b) else Z.sgn (x - y).
Proof.
  intros A B. destruct (Z.eqb_spec x y) as [->|NE]; [f_equal; lia|].
  destruct (Z.lt_total x y) as [L|[L|L]]; [|lia|].
  - rewrite !Z.sgn_neg by nia. reflexivity.
  - rewrite !Z.sgn_pos by nia. reflexivity.
Qed.
Lemma uucmp_sgn a b k : uucmp a b k = if a =? b then k else Z.sgn (a - b).
Proof. unfold uucmp. destruct (Z.eqb_spec a b); [reflexivity|]. cbn [negb]. destruct (Z.ltb_spec a b); [rewrite Z.sgn_neg by lia | rewrite Z.sgn_pos by lia]; reflexivity. Qed.
Lemma number_cons x l : number_of (x :: l) = x * 256 ^ zlen l + number_of l.
Proof. change (x :: l) with ([x] ++ l). rewrite number_of_app. unfold number_of at 1. cbn [fold_left]. lia. Qed.
Lemma memcmp_sgn : forall a b, length a = length b -> Forall (fun b => 0 <= b < 256) a -> Forall (fun b => 0 <= b < 256) b -> memcmp a b = Z.sgn (number_of a - number_of b).
Proof.
  induction a as [|x a IH]; intros [|y b] L A B; try discriminate; [reflexivity|]. injection L as L.
  inversion A as [|? ? X A']; subst. inversion B as [|? ? Y B']; subst. pose proof (number_bound a A') as NA. pose proof (number_bound b B') as NB.
  assert (ZE : zlen a = zlen b) by (unfold zlen; lia). rewrite !number_cons, ZE in *. cbn [memcmp]. rewrite lex_sgn by assumption.
  destruct (Z.eqb_spec x y) as [->|NE]; [rewrite Z.ltb_irrefl; apply IH; assumption|].
  destruct (Z.ltb_spec x y); [rewrite Z.sgn_neg by lia; reflexivity|]. destruct (Z.ltb_spec y x); [|lia]. rewrite Z.sgn_pos by lia. reflexivity.
Qed.
Lemma compare_sgn a b : uuid_bytes a -> uuid_bytes b -> uuid_compare a b = Z.sgn (number_of a - number_of b).
Proof.
  intros A B. destruct (number_fields a A) as (-> & RA). destruct (number_fields b B) as (-> & RB).
  destruct (unpack_ok a A) as (A0 & A1 & A2 & A3 & A4 & A5). destruct (unpack_ok b B) as (B0 & B1 & B2 & B3 & B4 & B5).
  unfold uuid_compare. rewrite !uucmp_sgn, memcmp_sgn by (try assumption; congruence).
  rewrite lex_sgn by assumption.
  assert (EQ : forall x y c d, 0 <= c < 2 ^ 16 -> 0 <= d < 2 ^ 16 -> (x * 2 ^ 16 + c =? y * 2 ^ 16 + d) = (x =? y) && (c =? d)).
  { intros x y c d C D. destruct (Z.eqb_spec x y) as [->|N1]; cbn [andb]; [destruct (Z.eqb_spec c d) as [->|]; [apply Z.eqb_refl|apply Z.eqb_neq; lia]|]. apply Z.eqb_neq. nia. }
  repeat first [rewrite lex_sgn by assumption | rewrite EQ by assumption].
  destruct (time_low (uuid_unpack a) =? _); cbn [andb]; [|reflexivity]. destruct (time_mid (uuid_unpack a) =? _); cbn [andb]; [|reflexivity].
  destruct (time_hi_and_version (uuid_unpack a) =? _); cbn [andb]; [|reflexivity]. destruct (clock_seq (uuid_unpack a) =? _); reflexivity.
Qed.
Lemma is_null_ok : forall l, Forall (fun b => 0 <= b < 256) l -> uuid_is_null l = if number_of l =? 0 then 1 else 0.
Proof.
  induction l as [|b l IH]; intros F; [reflexivity|]. inversion F as [|? ? B F']; subst. cbn [uuid_is_null]. rewrite number_cons. pose proof (number_bound l F').
  assert (0 < 256 ^ zlen l) by (apply Z.pow_pos_nonneg; unfold zlen; lia).
  destruct (Z.eqb_spec b 0) as [->|NE]; [rewrite IH by exact F'; reflexivity|]. destruct (Z.eqb_spec (b * 256 ^ zlen l + number_of l) 0); [nia|reflexivity].
Qed.

Lemma type_ok l : uuid_bytes l -> uuid_type l = rfc_version (number_of l).
Proof.
  intros B. destruct (lib_fields l B) as (_ & _ & E & _). unfold uuid_type, rfc_version. rewrite <- E. rewrite Z.shiftr_div_pow2, version_field by lia.
  change 0xF with (2 ^ 4 - 1). rewrite land_low by lia. change 16 with (2 ^ 4). apply Z.mod_mod. lia.
Qed.
Lemma bit_mask x k : 0 <= k -> (Z.land x (2 ^ k) =? 0) = ((x / 2 ^ k) mod 2 =? 0).
Proof.
  intros K. rewrite <- Z.bit0_mod, Z.div_pow2_bits by lia. rewrite Z.add_0_l.
  destruct (Z.testbit x k) eqn:T; cbn [Z.b2z Z.eqb].
  - apply Z.eqb_neq. intros E. assert (Z.testbit (Z.land x (2 ^ k)) k = false) by (rewrite E; apply Z.bits_0). rewrite Z.land_spec, T, Z.pow2_bits_true in H by lia. discriminate.
  - apply Z.eqb_eq. apply Z.bits_inj'. intros n N. rewrite Z.land_spec, Z.bits_0. destruct (Z.eq_dec n k) as [->|NE]; [rewrite T; reflexivity|]. rewrite Z.pow2_bits_false by lia. apply andb_false_r.
Qed.
Lemma lib_variant_ok l : uuid_bytes l -> let N := number_of l in
  uuid_variant l = if (N / 2 ^ 63) mod 2 =? 0 then 0 else if (N / 2 ^ 62) mod 2 =? 0 then 1 else if (N / 2 ^ 61) mod 2 =? 0 then 2 else 3.
Proof.
  intros B N. destruct (lib_fields l B) as (_ & _ & _ & E & _). fold N in E. unfold uuid_variant.
  change 0x8000 with (2 ^ 15). change 0x4000 with (2 ^ 14). change 0x2000 with (2 ^ 13). rewrite !bit_mask by lia. rewrite <- E.
  pose proof (fun k => slice_mod (N / 2 ^ 48) k 1 16) as SL. change (2 ^ 1) with 2 in SL. rewrite !SL by lia. rewrite !Z.div_div by lia. reflexivity.
Qed.

Lemma lib_time_ok l : uuid_bytes l -> let t := (rfc_timestamp (number_of l) - START) mod 2 ^ 64 in uuid_time l = (t / 10 ^ 7, t mod 10 ^ 7 / 10).
Proof.
  intros B t. destruct (lib_fields l B) as (E0 & E1 & E2 & _). destruct (unpack_ok l B) as (A0 & A1 & A2 & _).
  assert (T : Z.lor (time_low (uuid_unpack l)) (uwrap 64 (Z.shiftl (Z.lor (time_mid (uuid_unpack l)) (Z.shiftl (Z.land (time_hi_and_version (uuid_unpack l)) 0xFFF) 16)) 32)) = rfc_timestamp (number_of l)).
  { unfold rfc_timestamp. rewrite E0, E1, <- time_field, E2. change 0xFFF with (2 ^ 12 - 1). rewrite land_low by lia.
    rewrite (Z.lor_comm (time_mid _)), lor_shiftl_add by lia. pose proof (Z.mod_pos_bound (time_hi_and_version (uuid_unpack l)) (2 ^ 12) ltac:(lia)) as H.
    rewrite Z.lor_comm. unfold uwrap. rewrite Z.mod_small.
    - rewrite lor_shiftl_add by lia. change (2 ^ 48) with (2 ^ 16 * 2 ^ 32). lia.
    - rewrite Z.shiftl_mul_pow2 by lia. change (2 ^ 64) with 18446744073709551616. change (2 ^ 12) with 4096 in *. change (2 ^ 16) with 65536 in *. change (2 ^ 32) with 4294967296. lia. }
  unfold uuid_time. rewrite T, start_offset. reflexivity.
Qed.
Lemma uuid_at_timestamp nd sq t : length nd = 6%nat -> Forall (fun b => 0 <= b < 256) nd -> 0 <= sq < 2 ^ 14 -> 0 <= t + START < 2 ^ 60 ->
  let N := number_of (uuid_at nd sq t) in rfc_timestamp N = t + START /\ rfc_version N = 1 /\ rfc_ietf N /\ rfc_clock_sequence N = sq /\ rfc_node N = number_of nd.
Proof.
  intros L F SQ T N. destruct (uuid_at_fields nd sq t L F SQ) as (UB & _ & U). destruct (lib_fields _ UB) as (E0 & E1 & E2 & E3 & E4 & _). rewrite U in E0, E1, E2, E3, E4. fold N in E0, E1, E2, E3, E4.
  cbn [time_low time_mid time_hi_and_version clock_seq node] in *. set (x := t + START) in *.
  assert (A : 0 <= x / 2 ^ 48 < 2 ^ 12) by (split; [apply Z.div_pos; lia | apply Z.div_lt_upper_bound; [lia|]; change (2 ^ 48 * 2 ^ 12) with (2 ^ 60); lia]).
  rewrite (Z.mod_small (x / 2 ^ 48)) in E2 by exact A.
  split; [|split; [|split; [|split]]].
  - unfold rfc_timestamp. rewrite E0, E1, <- time_field, E2. 
    replace ((2 ^ 12 + x / 2 ^ 48) mod 2 ^ 12) with (x / 2 ^ 48) by (rewrite Z.add_comm; change (2 ^ 12) with (1 * 2 ^ 12) at 1; rewrite Z.mod_add, Z.mod_small by lia; reflexivity).
    clear - T. change (2 ^ 48) with (2 ^ 32 * 2 ^ 16). rewrite <- Z.div_div by lia.
    pose proof (Z.div_mod x (2 ^ 32) ltac:(lia)). pose proof (Z.div_mod (x / 2 ^ 32) (2 ^ 16) ltac:(lia)). lia.
  - unfold rfc_version. rewrite <- version_field, E2. symmetry. apply Z.div_unique with (x / 2 ^ 48); lia.
  - unfold rfc_ietf. rewrite <- ietf_field, E3. symmetry. apply Z.div_unique with sq; lia.
  - unfold rfc_clock_sequence. rewrite <- clock_field, E3. symmetry. apply Z.mod_unique with 2; lia.
  - exact E4.
Qed.

(** One call from any state of the clock: some of the readings are skipped. *)
Lemma get_clock_ok : forall readings k reg k' rest, clock_ok k -> 0 <= adjustment k <= 10 -> Forall reading_ok readings -> get_clock k readings = Ok (reg, k', rest) ->
  clock_ok k' /\ 0 <= adjustment k' <= 10 /\ exists pre, readings = pre ++ last k' :: rest /\ Forall (eq (last k)) pre /\ reg = ticks (last k') (adjustment k') + START.
Proof.
  induction readings as [|[s u] readings IH]; intros k reg k' rest K A R E; [discriminate|]. inversion R as [|? ? R1 R2]; subst.
  destruct (Z_le_gt_dec (adjustment k) 9) as [A9|A10].
  - destruct (get_clock_step k (s, u) readings K R1 ltac:(lia)) as (E1 & SQ). unfold reading in *. rewrite E in E1.
    injection E1 as EG EK ER. subst reg k' rest. cbn [last seq_ adjustment].
    split; [exact SQ|]. split; [destruct (earlier (s, u) (last k)), (earlier (last k) (s, u)); lia|]. exists []. split; [reflexivity|]. split; [constructor|reflexivity].
  - cbn [get_clock] in E. fold (earlier (s, u) (last k)) in E.
    assert (REG : forall a, 0 <= a <= 10 -> uwrap 64 (uwrap 64 (uwrap 64 (u * 10 + a) + uwrap 64 (s * 10000000)) + OFFSET) = ticks (s, u) a + START) by (intros; apply reg_ok; assumption).
    destruct ((s <? fst (last k)) || _).
    + rewrite REG in E by lia. injection E as <- <- <-. cbn [last adjustment]. split; [unfold clock_ok; cbn [seq_]; rewrite next_seq by exact K; apply Z.mod_pos_bound; lia|]. split; [lia|]. exists []. repeat split; auto.
    + destruct ((s =? fst (last k)) && (u =? snd (last k))) eqn:EQ.
      * destruct (Z.leb_spec 10 (adjustment k)); [|lia]. destruct (IH _ _ _ _ K A R2 E) as (K' & A' & pre & EP & FP & ER). split; [exact K'|]. split; [exact A'|].
        apply andb_prop in EQ. destruct EQ as (Q1 & Q2). apply Z.eqb_eq in Q1, Q2. exists ((s, u) :: pre). split; [rewrite EP; reflexivity|]. split; [|exact ER]. constructor; [|exact FP]. rewrite Q1, Q2. destruct (last k); reflexivity.
      * rewrite REG in E by lia. injection E as <- <- <-. cbn [last adjustment]. split; [exact K|]. split; [lia|]. exists []. repeat split; auto.
Qed.
Lemma at_of_reg nd k reg : clock_ok k -> reg = ticks (last k) (adjustment k) + START ->
  uuid_at nd (seq_ k) (ticks (last k) (adjustment k)) =
  uuid_pack (mkU (uwrap 32 reg) (uwrap 16 (Z.shiftr reg 32)) (Z.lor (Z.land (Z.shiftr (Z.shiftr reg 32) 16) 0x0FFF) 0x1000) (Z.lor (seq_ k) 0x8000) nd).
Proof.
  intros K E. unfold uuid_at. rewrite <- E. unfold uwrap, clock_ok in *. f_equal. rewrite !Z.shiftr_div_pow2 by lia. rewrite Z.div_div by lia. change (2 ^ 32 * 2 ^ 16) with (2 ^ 48). f_equal.
  - change 0x0FFF with (Z.ones 12). rewrite Z.land_ones by lia. pose proof (Z.mod_pos_bound (reg / 2 ^ 48) (2 ^ 12) ltac:(lia)). rewrite Z.lor_comm. change 0x1000 with (Z.shiftl 1 12). rewrite lor_shiftl_add by lia. lia.
  - rewrite Z.lor_comm. change 0x8000 with (Z.shiftl 1 15). rewrite lor_shiftl_add by lia. lia.
Qed.
