(** Proofs about the Base64 encoder: whole inputs. *)

From Coq Require Import ZArith List Lia Bool.
From Verif Require Import Base Bits CppText TextSpec TextLemmas Base64Model Base64Spec Base64Proofs.
Import ListNotations.
Open Scope Z_scope.

Definition finish (e : encoder) (src : list Z) (stop chunk : Z) (fuel : nat) (sp dp : Z) (dst : list Z) : outcome (Z * list Z) :=
  let* ' (sp, dp, dst) := outer HW e (indexTable (isUrl e)) src (zlen src) stop chunk fuel sp dp dst in
  leftover e (indexTable (isUrl e)) src (zlen src) sp dp dst.

Lemma finish_small e p rest w h z stop chunk fuel : zlen rest < 3 -> Forall byte rest -> stop <= zlen p ->
  zlen h = zlen (rfc4648 (isUrl e) (doPadding e) rest) ->
  finish e (p ++ rest) stop chunk fuel (zlen p) (zlen w) (w ++ h ++ z) = Ok (zlen w + zlen h, w ++ rfc4648 (isUrl e) (doPadding e) rest ++ z).
Proof.
  intros H F Hs Hh. unfold finish. destruct fuel; cbn [outer]; replace (_ <? _) with false by lia; cbn [bind]; apply leftover_ok; auto.
Qed.

Lemma finish_step e p ch rest w h h2 z stop chunk fuel : zlen ch mod 3 = 0 -> 0 < zlen ch -> Forall byte ch -> lineMax e <> 0 ->
  zlen p < stop -> Z.min (zlen p + chunk) stop = zlen p + zlen ch ->
  zlen h = zlen ch / 3 * 4 + zlen (nl_of e (zlen ch) (zlen p + zlen ch <? zlen (p ++ ch ++ rest))) ->
  finish e (p ++ ch ++ rest) stop chunk (S fuel) (zlen p) (zlen w) (w ++ h ++ h2 ++ z) =
  finish e ((p ++ ch) ++ rest) stop chunk fuel (zlen (p ++ ch))
    (zlen (w ++ rfc4648 (isUrl e) false ch ++ nl_of e (zlen ch) (zlen p + zlen ch <? zlen (p ++ ch ++ rest))))
    ((w ++ rfc4648 (isUrl e) false ch ++ nl_of e (zlen ch) (zlen p + zlen ch <? zlen (p ++ ch ++ rest))) ++ h2 ++ z).
Proof.
  intros M Hpos F HL Hs Hm Hh. unfold finish. cbn [outer]. replace (_ <? _) with true by lia. rewrite Hm.
  rewrite (chunk_ok e (zlen (p ++ ch ++ rest)) rest ch p w h (h2 ++ z) (p ++ ch ++ rest)) by (auto; lia).
  cbn [bind]. rewrite <- !app_assoc. f_equal.
  set (nl := nl_of e _ _) in *. rewrite !zlen_app, rfc_len by auto. repeat f_equal; lia.
Qed.

Lemma rfc_len_le url pad l : zlen (rfc4648 url pad l) <= (zlen l + 2) / 3 * 4.
Proof.
  revert l. apply (triples2 (fun l => zlen (rfc4648 url pad l) <= (zlen l + 2) / 3 * 4)); [|intros; destruct pad..|]; try (cbn; lia).
  intros. cbn [rfc4648]. rewrite !zlen_cons. pose proof (zlen_nonneg t). dm.
Qed.
Lemma rfc_nil url pad l : rfc4648 url pad l = [] -> l = [].
Proof. destruct l as [|a [|b [|c t]]]; auto; discriminate. Qed.

Lemma finish_basic e src h z : lineMax e < 0 -> Forall byte src -> zlen h = zlen (rfc4648 (isUrl e) (doPadding e) src) ->
  finish e src (zlen src / 3 * 3) (zlen src / 3 * 3) (Z.to_nat (zlen src / 3 * 3)) 0 0 (h ++ z) =
  Ok (zlen h, rfc4648 (isUrl e) (doPadding e) src ++ z).
Proof.
  intros HL F Hh. pose proof (zlen_nonneg src). destruct (Z.lt_ge_cases (zlen src) 3).
  - apply (finish_small e [] src [] h z); auto. change (zlen (@nil Z)) with 0. dm.
  - destruct (split_len src (zlen src / 3 * 3) ltac:(dm)) as (ch & rest & E & Lc).
    assert (Lr : zlen src = zlen ch + zlen rest) by (rewrite E at 1; apply zlen_app).
    assert (M3 : zlen ch mod 3 = 0) by (rewrite Lc; dm).
    destruct (proj1 (Forall_app _ _ _) (eq_ind _ (Forall byte) F _ E)) as [Fc Fr].
    assert (R : rfc4648 (isUrl e) (doPadding e) src = rfc4648 (isUrl e) false ch ++ rfc4648 (isUrl e) (doPadding e) rest) by (rewrite E; apply rfc_app; auto).
    rewrite R, zlen_app, rfc_len in Hh by auto. pose proof (zlen_nonneg (rfc4648 (isUrl e) (doPadding e) rest)).
    destruct (split_len h (zlen ch / 3 * 4) ltac:(dm)) as (h1 & h2 & -> & L1). rewrite zlen_app in Hh.
    destruct (Z.to_nat (zlen src / 3 * 3)) as [|fuel] eqn:Ef; [dm|].
    assert (NL : nl_of e (zlen ch) (zlen (@nil Z) + zlen ch <? zlen ([] ++ ch ++ rest)) = []).
    { unfold nl_of. replace (_ =? lineMax e) with false by dm. auto. }
    pose proof (finish_step e [] ch rest [] h1 h2 z (zlen src / 3 * 3) (zlen src / 3 * 3) fuel M3) as S. rewrite NL in S. cbn [app] in S.
    change (zlen (@nil Z)) with 0 in S. rewrite E at 1. rewrite <- app_assoc. rewrite S by (auto; try lia; dm). clear S.
    rewrite finish_small by (auto; try lia; dm). rewrite R, app_nil_r, <- app_assoc. do 2 f_equal. rewrite rfc_len, zlen_app by auto. lia.
Qed.

Lemma folded_len n sep l r : 0 < n -> folded n sep l r -> l <> [] -> zlen r = zlen l + (zlen l - 1) / n * zlen sep.
Proof.
  intros Hn H. induction H as [l Hl|a b r Ha Hb F IH]; intros N.
  - assert (0 < zlen l) by (destruct l; [congruence|rewrite zlen_cons; pose proof (zlen_nonneg l); lia]).
    rewrite Z.div_small by lia. lia.
  - rewrite !zlen_app, IH by auto. replace (zlen a + zlen b - 1) with (1 * n + (zlen b - 1)) by lia. rewrite Z.div_add_l by lia. lia.
Qed.

Lemma finish_lines e k : 0 < k -> lineMax e = 4 * k -> forall n rest, zlen rest <= Z.of_nat n -> Forall byte rest ->
  exists out, folded (lineMax e) (newLine e) (rfc4648 (isUrl e) (doPadding e) rest) out /\
  forall p w h z chunk fuel, zlen p mod 3 = 0 -> zlen h = zlen out ->
   (chunk = 3 * k \/ chunk <= 3 * k /\ zlen (p ++ rest) / 3 * 3 - zlen p <= chunk) -> zlen rest / 3 * 3 <= Z.of_nat fuel ->
   finish e (p ++ rest) (zlen (p ++ rest) / 3 * 3) chunk fuel (zlen p) (zlen w) (w ++ h ++ z) = Ok (zlen w + zlen out, w ++ out ++ z).
Proof.
  intros Hk HL. assert (HL0 : lineMax e <> 0) by lia. assert (HLp : 0 < lineMax e) by lia.
  induction n as [|n IH]; intros rest Hn F; destruct (Z.lt_ge_cases (zlen rest) 3) as [S3|S3]; try lia;
    try (exists (rfc4648 (isUrl e) (doPadding e) rest); split;
      [apply folded_last; pose proof (rfc_len_le (isUrl e) (doPadding e) rest); pose proof (zlen_nonneg rest); rewrite HL; dm
      |intros p w h z chunk fuel Hp Hh _ _; rewrite finish_small by (auto; rewrite zlen_app; pose proof (zlen_nonneg rest); dm); rewrite Hh; auto]).
  set (N := Z.min (3 * k) (zlen rest / 3 * 3)).
  assert (HN : 0 < N <= zlen rest /\ N mod 3 = 0) by (unfold N; split; [dm|]; destruct (Z.min_spec (3 * k) (zlen rest / 3 * 3)) as [[_ ->]|[_ ->]]; dm).
  destruct (split_len rest N ltac:(lia)) as (ch & rest' & E & Lc).
  assert (Lr : zlen rest = zlen ch + zlen rest') by (rewrite E at 1; apply zlen_app). pose proof (zlen_nonneg rest').
  destruct (proj1 (Forall_app _ _ _) (eq_ind _ (Forall byte) F _ E)) as [Fc Fr].
  assert (M3 : zlen ch mod 3 = 0) by (rewrite Lc; apply HN).
  assert (R : rfc4648 (isUrl e) (doPadding e) rest = rfc4648 (isUrl e) false ch ++ rfc4648 (isUrl e) (doPadding e) rest') by (rewrite E; apply rfc_app; auto).
  assert (MIN : forall p chunk, zlen p mod 3 = 0 -> (chunk = 3 * k \/ chunk <= 3 * k /\ zlen (p ++ rest) / 3 * 3 - zlen p <= chunk) ->
    Z.min (zlen p + chunk) (zlen (p ++ rest) / 3 * 3) = zlen p + zlen ch).
  { intros p chunk Hp Hc. rewrite Lc, zlen_app in *. unfold N. replace ((zlen p + zlen rest) / 3 * 3) with (zlen p + zlen rest / 3 * 3) in * by (clear - Hp; dm). lia. }
  destruct (Z.eq_dec N (3 * k)) as [EN|EN].
  - destruct rest' as [|x rest'].
    + exists (rfc4648 (isUrl e) false ch). rewrite R. cbn [rfc4648]. rewrite app_nil_r. split; [apply folded_last; rewrite rfc_len by auto; rewrite HL, Lc; dm|].
      intros p w h z chunk fuel Hp Hh Hc Hf. specialize (MIN p chunk Hp Hc). rewrite app_nil_r in E. subst rest. change (zlen (@nil Z)) with 0 in *.
      destruct fuel as [|fuel]; [clear - S3 Hf; dm|].
      assert (NL : nl_of e (zlen ch) (zlen p + zlen ch <? zlen (p ++ ch ++ [])) = []).
      { unfold nl_of. rewrite app_nil_r, zlen_app. replace (_ <? _) with false by lia. rewrite andb_false_r. auto. }
      pose proof (finish_step e p ch [] w h [] z (zlen (p ++ ch) / 3 * 3) chunk fuel M3) as S. rewrite NL in S. rewrite !app_nil_r in S. cbn [app] in S.
      rewrite S; auto; try lia; try (rewrite zlen_app; dm); [|rewrite Hh, rfc_len by auto; cbn; lia]. clear S.
      pose proof (finish_small e (p ++ ch) [] (w ++ rfc4648 (isUrl e) false ch) [] z (zlen (p ++ ch) / 3 * 3) chunk fuel) as S. cbn [app rfc4648] in S. rewrite app_nil_r in S.
      rewrite S; auto; try (cbn; lia); [|rewrite zlen_app; dm]. change (zlen (@nil Z)) with 0. rewrite <- app_assoc, Z.add_0_r, zlen_app. auto.
    + destruct (IH (x :: rest') ltac:(lia) Fr) as (out & FO & RO).
      exists (rfc4648 (isUrl e) false ch ++ newLine e ++ out). rewrite R. split.
      { apply folded_more; auto. - rewrite rfc_len by auto. rewrite Lc, HL. dm. - intros Q. apply rfc_nil in Q. discriminate. }
      intros p w h z chunk fuel Hp Hh Hc Hf. specialize (MIN p chunk Hp Hc). rewrite !zlen_app, rfc_len in Hh by auto.
      pose proof (zlen_nonneg out). pose proof (zlen_nonneg (newLine e)).
      destruct (split_len h (zlen ch / 3 * 4 + zlen (newLine e)) ltac:(dm)) as (h1 & h2 & -> & L1). rewrite zlen_app in Hh.
      destruct fuel as [|fuel]; [clear - S3 Hf; dm|]. subst rest.
      assert (NL : nl_of e (zlen ch) (zlen p + zlen ch <? zlen (p ++ ch ++ x :: rest')) = newLine e).
      { unfold nl_of. replace (_ =? lineMax e) with true by (rewrite Lc, HL; dm). rewrite !zlen_app. rewrite zlen_cons in *. pose proof (zlen_nonneg rest'). replace (_ <? _) with true by lia. auto. }
      pose proof (finish_step e p ch (x :: rest') w h1 h2 z (zlen (p ++ ch ++ x :: rest') / 3 * 3) chunk fuel M3) as S. rewrite NL in S.
      rewrite <- app_assoc. rewrite S; auto; try lia. clear S.
      assert (Ep : p ++ ch ++ x :: rest' = (p ++ ch) ++ x :: rest') by (rewrite app_assoc; auto).
      rewrite Ep. rewrite RO; [| |lia| |].
      * rewrite <- !app_assoc. do 2 f_equal. rewrite !zlen_app, rfc_len by auto. lia.
      * rewrite zlen_app. clear - Hp M3. dm.
      * destruct Hc as [->|[Hc1 Hc2]]; auto. right. split; auto. rewrite <- Ep, !zlen_app. rewrite !zlen_app in Hc2. lia.
      * rewrite zlen_app in Hf. clear - Hf M3 HN Lc. dm.
  - assert (EN2 : N = zlen rest / 3 * 3) by lia.
    exists (rfc4648 (isUrl e) (doPadding e) rest). split.
    { apply folded_last. pose proof (rfc_len_le (isUrl e) (doPadding e) rest). rewrite HL. dm. }
    intros p w h z chunk fuel Hp Hh Hc Hf. specialize (MIN p chunk Hp Hc). rewrite R, zlen_app, rfc_len in Hh by auto.
    pose proof (zlen_nonneg (rfc4648 (isUrl e) (doPadding e) rest')).
    destruct (split_len h (zlen ch / 3 * 4) ltac:(dm)) as (h1 & h2 & -> & L1). rewrite zlen_app in Hh. rewrite R. subst rest.
    destruct fuel as [|fuel]; [clear - S3 Hf; dm|].
    assert (NL : nl_of e (zlen ch) (zlen p + zlen ch <? zlen (p ++ ch ++ rest')) = []).
    { unfold nl_of. replace (_ =? lineMax e) with false by (rewrite Lc, HL; dm). auto. }
    pose proof (finish_step e p ch rest' w h1 h2 z (zlen (p ++ ch ++ rest') / 3 * 3) chunk fuel M3) as S. rewrite NL in S. rewrite !app_nil_r in S.
    rewrite <- app_assoc. rewrite S; auto; try lia; [|cbn; lia]. clear S.
    rewrite finish_small; auto; try lia.
    + rewrite <- !app_assoc. do 2 f_equal. rewrite !zlen_app, rfc_len by auto. lia.
    + rewrite Lc, EN2 in Lr. clear - Lr. dm.
    + rewrite !zlen_app in *. clear - Hp Lr Lc EN2. dm.
Qed.

(** ** encoding, encode, encodeInto *)

Definition line_config (e : encoder) : Prop := lineMax e = -1 \/ (0 < lineMax e /\ lineMax e mod 4 = 0).
(** What the encoder should produce. *)
Definition encodes (e : encoder) (src out : list Z) : Prop :=
  if lineMax e <? 0 then out = rfc4648 (isUrl e) (doPadding e) src
  else folded (lineMax e) (newLine e) (rfc4648 (isUrl e) (doPadding e) src) out.

Lemma encoding_ok e src : line_config e -> Forall byte src -> exists out, encodes e src out /\
  forall h z, zlen h = zlen out -> encoding HW e src (h ++ z) = Ok (zlen out, out ++ z).
Proof.
  intros C F. pose proof (zlen_nonneg src). unfold encodes, encoding. rewrite !Z.quot_div_nonneg by lia.
  destruct C as [C|[C1 C2]].
  - rewrite C. change (-1 <? 0) with true. cbn [andb Z.gtb Z.compare]. eexists. split; [reflexivity|]. intros h z Hh.
    pose proof (finish_basic e src h z ltac:(lia) F Hh) as E. unfold finish in E. rewrite E. rewrite Hh. auto.
  - replace (lineMax e <? 0) with false by lia. replace (lineMax e >? 0) with true by lia. cbn [andb].
    rewrite Z.quot_div_nonneg by lia. set (k := lineMax e / 4). assert (HL : lineMax e = 4 * k) by (unfold k; dm).
    destruct (finish_lines e k ltac:(lia) HL (Z.to_nat (zlen src)) src ltac:(lia) F) as (out & FO & RO). exists out. split; auto.
    intros h z Hh. specialize (RO [] [] h z (if zlen src / 3 * 3 >? k * 3 then k * 3 else zlen src / 3 * 3) (Z.to_nat (zlen src / 3 * 3)) eq_refl Hh).
    unfold finish in RO. cbn [app] in RO. change (zlen (@nil Z)) with 0 in RO. apply RO; [|dm].
    destruct (_ >? _) eqn:Q; [left; lia|right; lia].
Qed.

(** ** Lengths *)

Lemma encodes_len e src out : line_config e -> encodes e src out ->
  zlen out = let l := zlen (rfc4648 (isUrl e) (doPadding e) src) in
             if lineMax e <? 0 then l else l + Z.quot (l - 1) (lineMax e) * zlen (newLine e).
Proof.
  unfold encodes. intros C H. cbn zeta. destruct (Z.ltb_spec (lineMax e) 0); [subst; auto|]. destruct C as [|[C1 C2]]; [lia|].
  destruct (rfc4648 (isUrl e) (doPadding e) src) as [|x l] eqn:E.
  - inversion H as [l Hl|a b r Ha Hb Hr]; subst.
    + change (zlen (@nil Z)) with 0. change (0 - 1) with (- (1)). rewrite Z.quot_opp_l, Z.quot_small by dm. lia.
    + apply app_eq_nil in H1. destruct H1 as [-> _]. change (zlen (@nil Z)) with 0 in Ha. lia.
  - rewrite (folded_len _ _ _ _ C1 H) by discriminate. rewrite Z.quot_div_nonneg; auto. rewrite zlen_cons. pose proof (zlen_nonneg l). lia.
Qed.
Lemma outLength_ok m e src out : line_config e -> encodes e src out -> zlen src + 2 <= int_max -> zlen out <= int_max ->
  outLength m e (zlen src) = Ok (zlen out).
Proof.
  intros C H Hs Ho. rewrite (encodes_len e src out C H) in *. cbn zeta in *. pose proof (zlen_nonneg src). pose proof (zlen_nonneg (newLine e)).
  set (l := zlen (rfc4648 (isUrl e) (doPadding e) src)) in *.
  assert (L0 : 0 <= l) by apply zlen_nonneg.
  assert (Ll : l <= int_max /\ (0 < lineMax e -> 0 <= Z.quot (l - 1) (lineMax e) * zlen (newLine e) <= int_max)).
  { destruct (Z.ltb_spec (lineMax e) 0); [lia|]. destruct C as [|[C1 C2]]; [lia|].
    assert (0 <= Z.quot (l - 1) (lineMax e)).
    { destruct (Z.eq_dec l 0) as [->|]; [change (0 - 1) with (- (1)); rewrite Z.quot_opp_l, Z.quot_small by dm; lia|]. apply Z.quot_pos; lia. }
    nia. }
  unfold outLength, sadd, smul.
  assert (I : forall x, 0 <= x <= int_max -> in_s 32 x) by (unfold in_s, smin, smax, int_max; change (2 ^ (32 - 1)) with 2147483648; lia).
  assert (E : (if doPadding e then let* a := sres m 32 (zlen src + 2) in sres m 32 (4 * Z.quot a 3)
     else let* b := sres m 32 (4 * Z.quot (zlen src) 3) in
      if Z.rem (zlen src) 3 =? 0 then Ok b else let* c := sres m 32 (b + Z.rem (zlen src) 3) in sres m 32 (c + 1)) = Ok l).
  { unfold l in *. destruct (doPadding e).
    - rewrite rfc_len_pad in *. rewrite sres_ok by (apply I; lia). cbn [bind]. rewrite Z.quot_div_nonneg by lia.
      rewrite sres_ok by (apply I; lia). f_equal. lia.
    - rewrite rfc_len_nopad in *. rewrite Z.quot_div_nonneg, Z.rem_mod_nonneg by lia. pose proof (Z.mod_pos_bound (zlen src) 3 ltac:(lia)).
      assert (0 <= zlen src / 3) by (apply Z.div_pos; lia).
      rewrite sres_ok by (apply I; destruct (_ =? 0); lia). cbn [bind]. destruct (_ =? 0); [f_equal; lia|].
      rewrite sres_ok by (apply I; lia). cbn [bind]. rewrite sres_ok by (apply I; lia). f_equal. lia. }
  rewrite E. cbn [bind]. destruct Ll as [Ll1 Ll2]. destruct C as [C|[C1 C2]].
  - rewrite C in *. auto.
  - replace (lineMax e >? 0) with true by lia. replace (lineMax e <? 0) with false in * by lia. specialize (Ll2 C1).
    rewrite sres_ok by (apply I; lia). cbn [bind]. apply sres_ok. apply I. lia.
Qed.

Lemma zlen_repeat {A} (x : A) n : 0 <= n -> zlen (repeat x (Z.to_nat n)) = n.
Proof. intros. unfold zlen. rewrite repeat_length. lia. Qed.

Lemma encode_ok e src : line_config e -> Forall byte src -> zlen src + 2 <= int_max -> exists out, encodes e src out /\
  (zlen out <= int_max -> encode HW e src = Ok out /\
   forall dst, encodeInto HW e src dst = if zlen dst <? zlen out then Throw InterruptedException
     else Ok (zlen out, out ++ skipn (length out) dst)).
Proof.
  intros C F Hs. destruct (encoding_ok e src C F) as (out & EO & RO). exists out. split; auto. intros Ho.
  unfold encode, encodeInto. rewrite (outLength_ok HW e src out) by auto. cbn [bind]. pose proof (zlen_nonneg out). split.
  - unfold newArray. replace (_ <? 0) with false by lia. cbn [bind].
    rewrite <- (app_nil_r (repeat 0 _)). rewrite RO by (apply zlen_repeat; auto). cbn [bind]. rewrite Z.eqb_refl, app_nil_r. auto.
  - intros dst. destruct (Z.ltb_spec (zlen dst) (zlen out)); auto.
    rewrite <- (firstn_skipn (length out) dst) at 1. rewrite RO; auto. unfold zlen in *. rewrite firstn_length. lia.
Qed.
