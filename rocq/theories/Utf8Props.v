(** C95: case conversion of Unicode texts. *)

From Coq Require Import ZArith List Lia Bool String.
From Verif Require Import Base Bits CppText TextSpec TextLemmas StringModel Utf8Spec Utf8Model.
Import ListNotations.
Open Scope string_scope.
Open Scope list_scope.
Open Scope Z_scope.

(** ** Lemmas *)

Lemma cont_byte : forall x, 0 <= x < 64 -> continuation (128 + x) = true.
Proof.
  intros x H. unfold continuation. apply Z.eqb_eq.
  assert (E : forallb (fun n => Z.land (128 + Z.of_nat n) 192 =? 128) (seq 0 64) = true) by (vm_compute; reflexivity).
  rewrite forallb_forall in E. specialize (E (Z.to_nat x)). rewrite Z2Nat.id in E by lia.
  apply Z.eqb_eq, E, in_seq. lia.
Qed.

Lemma ltb_t : forall a b, a < b -> (a <? b) = true. Proof. intros; apply Z.ltb_lt; auto. Qed.
Lemma ltb_f : forall a b, b <= a -> (a <? b) = false. Proof. intros; apply Z.ltb_ge; auto. Qed.
Lemma leb_t : forall a b, a <= b -> (a <=? b) = true. Proof. intros; apply Z.leb_le; auto. Qed.
Lemma leb_f : forall a b, b < a -> (a <=? b) = false. Proof. intros; apply Z.leb_gt; auto. Qed.
Lemma eqb_f : forall a b, a <> b -> (a =? b) = false. Proof. intros; apply Z.eqb_neq; auto. Qed.

Ltac zb := repeat first [rewrite ltb_t by lia | rewrite ltb_f by lia | rewrite leb_t by lia
                        | rewrite leb_f by lia | rewrite eqb_f by lia].

Lemma read_bytes : forall strict c r, scalar c -> 
  match utf8_bytes c ++ r with
  | [] => False
  | b :: t => read_char strict b t = Char c r
  end.
Proof.
  intros strict c r S. unfold utf8_bytes, scalar in *.
  pose proof (Z.mod_pos_bound c 64 ltac:(lia)). pose proof (Z.div_mod c 64 ltac:(lia)).
  pose proof (Z.mod_pos_bound (c / 64) 64 ltac:(lia)). pose proof (Z.div_mod (c / 64) 64 ltac:(lia)).
  pose proof (Z.mod_pos_bound (c / 4096) 64 ltac:(lia)). pose proof (Z.div_mod (c / 4096) 64 ltac:(lia)).
  assert (E1 : c / 4096 = c / 64 / 64) by (rewrite Z.div_div by lia; reflexivity).
  assert (E2 : c / 262144 = c / 4096 / 64) by (rewrite Z.div_div by lia; reflexivity).
  destruct (Z.ltb_spec c 128).
  { cbn [app]. unfold read_char. zb. auto. }
  destruct (Z.ltb_spec c 2048).
  { cbn [app]. unfold read_char. zb. rewrite cont_byte by lia. rewrite Z.shiftl_mul_pow2 by lia. f_equal. lia. }
  destruct (Z.ltb_spec c 65536).
  { cbn [app]. unfold read_char. zb. rewrite !cont_byte by lia. cbn [negb].
    replace ((224 + c / 4096 =? 224) && (128 + c / 64 mod 64 <? 160)) with false.
    2:{ symmetry. apply andb_false_iff. destruct (Z.eqb_spec (224 + c / 4096) 224); [right; apply Z.ltb_ge; lia|auto]. }
    replace (strict && (224 + c / 4096 =? 237) && (160 <=? 128 + c / 64 mod 64)) with false.
    2:{ symmetry. destruct strict; cbn [andb]; auto. apply andb_false_iff.
        destruct (Z.eqb_spec (224 + c / 4096) 237); [right; apply Z.leb_gt; lia|auto]. }
    rewrite !Z.shiftl_mul_pow2 by lia. f_equal. lia. }
  cbn [app]. unfold read_char. zb. rewrite !cont_byte by lia. cbn [negb].
  replace ((240 + c / 262144 =? 240) && (128 + c / 4096 mod 64 <? 144)) with false.
  2:{ symmetry. apply andb_false_iff. destruct (Z.eqb_spec (240 + c / 262144) 240); [right; apply Z.ltb_ge; lia|auto]. }
  replace ((240 + c / 262144 =? 244) && (144 <=? 128 + c / 4096 mod 64)) with false.
  2:{ symmetry. apply andb_false_iff. destruct (Z.eqb_spec (240 + c / 262144) 244); [right; apply Z.leb_gt; lia|auto]. }
  rewrite !Z.shiftl_mul_pow2 by lia. f_equal. lia.
Qed.

Lemma land63 : forall x, Z.land x 63 = x mod 64.
Proof. intros; change 63 with (Z.ones 6); rewrite Z.land_ones by lia; reflexivity. Qed.
Lemma write_bytes : forall strict c, scalar c -> write_char strict c = Some (utf8_bytes c).
Proof.
  intros strict c S. unfold write_char, utf8_bytes, scalar in *.
  replace (strict && surrogate c) with false.
  2:{ symmetry. destruct strict; auto. unfold surrogate. cbn [andb].
      destruct (Z.leb_spec 55296 c), (Z.leb_spec c 57343); cbn; auto; lia. }
  rewrite !land63, !Z.shiftr_div_pow2 by lia.
  change (2 ^ 6) with 64; change (2 ^ 12) with 4096; change (2 ^ 18) with 262144.
  rewrite !(Z.add_comm _ 128), (Z.add_comm _ 192), (Z.add_comm _ 224), (Z.add_comm _ 240).
  zb. destruct (Z.ltb_spec c 128); [zb; auto|].
  destruct (Z.ltb_spec c 2048); [zb; auto|].
  destruct (Z.ltb_spec c 65536); [zb; auto|].
  zb. auto.
Qed.

Lemma bytes_nonempty : forall c, utf8_bytes c <> [].
Proof. intros c; unfold utf8_bytes; destruct (c <? 128), (c <? 2048), (c <? 65536); discriminate. Qed.
Lemma from_utf8 : forall strict cs r n, Forall scalar cs -> (List.length (utf8 cs ++ r) <= n)%nat ->
  from_bytes strict n (utf8 cs ++ r) =
  match from_bytes strict (n - List.length cs) r with Some l => Some (cs ++ l) | None => None end.
Proof.
  induction cs as [|c cs IH]; intros r n F L.
  - cbn [utf8 flat_map app List.length]. rewrite Nat.sub_0_r. destruct (from_bytes strict n r); auto.
  - inversion F; subst. cbn [utf8 flat_map] in *. rewrite <- app_assoc in *. fold (utf8 cs) in *.
    pose proof (read_bytes strict c (utf8 cs ++ r) H1) as R.
    destruct (utf8_bytes c ++ utf8 cs ++ r) as [|b t] eqn:E; [contradiction|].
    assert (LL : (List.length (utf8 cs ++ r) < List.length (b :: t))%nat).
    { rewrite <- E. rewrite (app_length (utf8_bytes c)). pose proof (bytes_nonempty c). destruct (utf8_bytes c); [congruence|cbn; lia]. }
    destruct n as [|n]; [cbn in L; lia|]. cbn [from_bytes]. rewrite R.
    rewrite IH by (auto; cbn in L, LL; lia). cbn [List.length Nat.sub].
    destruct (from_bytes strict (n - List.length cs) r); auto.
Qed.
Lemma to_utf8 : forall strict cs, Forall scalar cs -> to_bytes strict cs = Some (utf8 cs).
Proof. induction 1; auto. cbn [to_bytes]. rewrite write_bytes, IHForall by auto. reflexivity. Qed.

Lemma bytes_nonul : forall c, scalar c -> c <> 0 -> ~ In 0 (utf8_bytes c).
Proof.
  intros c S N. unfold utf8_bytes, scalar in *.
  pose proof (Z.mod_pos_bound c 64 ltac:(lia)). 
  pose proof (Z.mod_pos_bound (c / 64) 64 ltac:(lia)).
  pose proof (Z.mod_pos_bound (c / 4096) 64 ltac:(lia)).
  assert (0 <= c) by lia.
  pose proof (Z.div_pos c 64 ltac:(lia) ltac:(lia)). pose proof (Z.div_pos c 4096 ltac:(lia) ltac:(lia)).
  pose proof (Z.div_pos c 262144 ltac:(lia) ltac:(lia)).
  destruct (Z.ltb_spec c 128), (Z.ltb_spec c 2048), (Z.ltb_spec c 65536); cbn [In]; lia.
Qed.
Lemma utf8_nonul : forall cs, Forall scalar cs -> ~ In 0 cs -> ~ In 0 (utf8 cs).
Proof.
  induction 1; cbn; auto. intros N I. apply in_app_or in I as [I|I].
  - eapply bytes_nonul; eauto.
  - apply IHForall; auto.
Qed.
Lemma cstr_keep : forall s, ~ In 0 s -> cstr s = s.
Proof.
  induction s as [|c s IH]; cbn; auto. intros H.
  destruct (Z.eqb_spec c 0); [exfalso; apply H; auto|]. rewrite IH; auto.
Qed.
Lemma from_nil : forall strict n, from_bytes strict n [] = Some [].
Proof. destruct n; reflexivity. Qed.

(** What reading a character finds, for every text. *)
Lemma cont_range b : 0 <= b < 256 -> continuation b = true -> 128 <= b < 192.
Proof.
  intros H. unfold continuation.
  assert (E : forallb (fun n => implb (Z.land (Z.of_nat n) 192 =? 128) ((128 <=? Z.of_nat n) && (Z.of_nat n <? 192))) (seq 0 256) = true) by (vm_compute; reflexivity).
  rewrite forallb_forall in E. specialize (E (Z.to_nat b)). rewrite Z2Nat.id in E by lia. intros C. rewrite C in E. cbn [implb] in E.
  apply andb_true_iff in E; [|apply in_seq; lia]. lia.
Qed.
Lemma bytes2 x y : 2 <= x < 32 -> 0 <= y < 64 -> utf8_bytes (x * 64 + y) = [192 + x; 128 + y].
Proof.
  intros X Y. unfold utf8_bytes. zb. assert (D : (x * 64 + y) / 64 = x) by (symmetry; apply Z.div_unique with y; lia).
  assert (M : (x * 64 + y) mod 64 = y) by (symmetry; apply Z.mod_unique with x; lia). rewrite D, M. reflexivity.
Qed.
Lemma bytes3 x y z : 0 <= x < 16 -> 0 <= y < 64 -> 0 <= z < 64 -> 2048 <= x * 4096 + y * 64 + z -> utf8_bytes (x * 4096 + y * 64 + z) = [224 + x; 128 + y; 128 + z].
Proof.
  intros X Y Z0 L. set (c := x * 4096 + y * 64 + z) in *. unfold utf8_bytes. zb. assert (D : c / 64 = x * 64 + y) by (symmetry; apply Z.div_unique with z; lia).
  assert (D2 : c / 4096 = x) by (symmetry; apply Z.div_unique with (y * 64 + z); lia).
  assert (M : c mod 64 = z) by (symmetry; apply Z.mod_unique with (x * 64 + y); lia).
  assert (M2 : (x * 64 + y) mod 64 = y) by (symmetry; apply Z.mod_unique with x; lia). now rewrite D, D2, M, M2.
Qed.
Lemma bytes4 w x y z : 0 <= w < 5 -> 0 <= x < 64 -> 0 <= y < 64 -> 0 <= z < 64 -> 65536 <= w * 262144 + x * 4096 + y * 64 + z ->
  utf8_bytes (w * 262144 + x * 4096 + y * 64 + z) = [240 + w; 128 + x; 128 + y; 128 + z].
Proof.
  intros W X Y Z0 L. set (c := w * 262144 + x * 4096 + y * 64 + z) in *. unfold utf8_bytes. zb.
  assert (D : c / 64 = w * 4096 + x * 64 + y) by (symmetry; apply Z.div_unique with z; lia).
  assert (D2 : c / 4096 = w * 64 + x) by (symmetry; apply Z.div_unique with (y * 64 + z); lia).
  assert (D3 : c / 262144 = w) by (symmetry; apply Z.div_unique with (x * 4096 + y * 64 + z); lia).
  assert (M : c mod 64 = z) by (symmetry; apply Z.mod_unique with (w * 4096 + x * 64 + y); lia).
  assert (M2 : (w * 4096 + x * 64 + y) mod 64 = y) by (symmetry; apply Z.mod_unique with (w * 64 + x); lia).
  assert (M3 : (w * 64 + x) mod 64 = x) by (symmetry; apply Z.mod_unique with w; lia). now rewrite D, D2, D3, M, M2, M3.
Qed.
Lemma read_found b t : Forall (fun x => 0 <= x < 256) (b :: t) ->
  match read_char true b t with
  | Char c r => scalar c /\ b :: t = utf8_bytes c ++ r
  | Incomplete => exists c q, scalar c /\ q <> [] /\ (b :: t) ++ q = utf8_bytes c
  | Invalid => True
  end.
Proof.
  intros F. inversion F as [|x l B T]; subst. unfold read_char, scalar. rewrite !Z.shiftl_mul_pow2 by lia.
  change (2 ^ 6) with 64; change (2 ^ 12) with 4096; change (2 ^ 18) with 262144.
  destruct (Z.ltb_spec b 128); [split; [lia|unfold utf8_bytes; zb; reflexivity]|]. destruct (Z.ltb_spec b 194); [exact I|]. destruct (Z.ltb_spec b 224).
  { destruct t as [|b2 t].
    { exists ((b - 192) * 64 + 0), [128 + 0]. split; [lia|]. split; [discriminate|]. rewrite bytes2 by lia. cbn [app]. repeat (f_equal; try lia). }
    inversion T as [|x l B2 T2]; subst. destruct (continuation b2) eqn:C2; [|exact I]. apply cont_range in C2; [|lia]. split; [lia|].
    replace (b * 64 + b2 - 12416) with ((b - 192) * 64 + (b2 - 128)) by lia. rewrite bytes2 by lia. cbn [app]. repeat (f_equal; try lia). }
  destruct (Z.ltb_spec b 240).
  { destruct t as [|b2 t].
    { exists ((b - 224) * 4096 + (if b =? 224 then 32 else 0) * 64 + 0), [128 + (if b =? 224 then 32 else 0); 128 + 0].
      destruct (Z.eqb_spec b 224); (split; [lia|]; split; [discriminate|]; rewrite bytes3 by lia; cbn [app]; repeat (f_equal; try lia)). }
    inversion T as [|x l B2 T2]; subst. destruct (continuation b2) eqn:C2; [|exact I]. apply cont_range in C2; [|lia]. cbn [negb].
    destruct ((b =? 224) && (b2 <? 160)) eqn:Q1; [exact I|]. cbn [andb]. destruct ((b =? 237) && (160 <=? b2)) eqn:Q2; [exact I|].
    assert (b = 224 -> 160 <= b2) by lia. assert (b = 237 -> b2 < 160) by lia.
    destruct t as [|b3 t].
    { exists ((b - 224) * 4096 + (b2 - 128) * 64 + 0), [128 + 0]. split; [lia|]. split; [discriminate|]. rewrite bytes3 by lia. cbn [app]. repeat (f_equal; try lia). }
    inversion T2 as [|x l B3 T3]; subst. destruct (continuation b3) eqn:C3; [|exact I]. apply cont_range in C3; [|lia]. rewrite !Z.shiftl_mul_pow2 by lia. change (2 ^ 6) with 64.
    split; [lia|]. replace (b * 4096 + b2 * 64 + b3 - 925824) with ((b - 224) * 4096 + (b2 - 128) * 64 + (b3 - 128)) by lia. rewrite bytes3 by lia. cbn [app]. repeat (f_equal; try lia). }
  destruct (Z.ltb_spec b 245); [|exact I]. destruct t as [|b2 t].
  { exists ((b - 240) * 262144 + (if b =? 240 then 16 else 0) * 4096 + 0 * 64 + 0), [128 + (if b =? 240 then 16 else 0); 128 + 0; 128 + 0].
    destruct (Z.eqb_spec b 240); (split; [lia|]; split; [discriminate|]; rewrite bytes4 by lia; cbn [app]; repeat (f_equal; try lia)). }
  inversion T as [|x l B2 T2]; subst. destruct (continuation b2) eqn:C2; [|exact I]. apply cont_range in C2; [|lia]. cbn [negb].
  destruct ((b =? 240) && (b2 <? 144)) eqn:Q1; [exact I|]. destruct ((b =? 244) && (144 <=? b2)) eqn:Q2; [exact I|].
  assert (b = 240 -> 144 <= b2) by lia. assert (b = 244 -> b2 < 144) by lia.
  destruct t as [|b3 t].
  { exists ((b - 240) * 262144 + (b2 - 128) * 4096 + 0 * 64 + 0), [128 + 0; 128 + 0]. split; [lia|]. split; [discriminate|]. rewrite bytes4 by lia. cbn [app]. repeat (f_equal; try lia). }
  inversion T2 as [|x l B3 T3]; subst. destruct (continuation b3) eqn:C3; [|exact I]. apply cont_range in C3; [|lia]. cbn [negb].
  destruct t as [|b4 t].
  { exists ((b - 240) * 262144 + (b2 - 128) * 4096 + (b3 - 128) * 64 + 0), [128 + 0]. split; [lia|]. split; [discriminate|]. rewrite bytes4 by lia. cbn [app]. repeat (f_equal; try lia). }
  inversion T3 as [|x l B4 T4]; subst. destruct (continuation b4) eqn:C4; [|exact I]. apply cont_range in C4; [|lia]. rewrite !Z.shiftl_mul_pow2 by lia. change (2 ^ 6) with 64. change (2 ^ 12) with 4096.
  split; [lia|]. replace (b * 262144 + b2 * 4096 + b3 * 64 + b4 - 63447168) with ((b - 240) * 262144 + (b2 - 128) * 4096 + (b3 - 128) * 64 + (b4 - 128)) by lia. rewrite bytes4 by lia. cbn [app]. repeat (f_equal; try lia).
Qed.
Lemma read_prefix strict c b t q : scalar c -> q <> [] -> (b :: t) ++ q = utf8_bytes c -> read_char strict b t = Incomplete.
Proof.
  intros S N E. assert (R := read_bytes strict c [] S). rewrite app_nil_r, <- E in R. cbn [app] in R. revert R. unfold read_char.
  assert (L : forall a (u : list Z), Char a [] <> Char a (q ++ u)) by (intros a u Q; injection Q as Q; destruct q; [contradiction|discriminate]).
  destruct q as [|q0 q]; [contradiction|]. 
  destruct (b <? 128); [destruct t; discriminate|]. destruct (b <? 194); [discriminate|].
  destruct t as [|b2 t].
  { destruct (b <? 224); [reflexivity|]. destruct (b <? 240); [reflexivity|]. destruct (b <? 245); [reflexivity|discriminate]. }
  cbn [app]. destruct (b <? 224); [destruct (continuation b2); [destruct t; discriminate|discriminate]|].
  destruct (b <? 240).
  { destruct (negb (continuation b2)); [discriminate|]. destruct ((b =? 224) && _); [discriminate|]. destruct (strict && _ && _); [discriminate|].
    destruct t as [|b3 t]; [reflexivity|]. cbn [app]. destruct (continuation b3); [destruct t; discriminate|discriminate]. }
  destruct (b <? 245); [|discriminate]. destruct (negb (continuation b2)); [discriminate|]. destruct ((b =? 240) && _); [discriminate|]. destruct ((b =? 244) && _); [discriminate|].
  destruct t as [|b3 t]; [reflexivity|]. cbn [app]. destruct (negb (continuation b3)); [discriminate|].
  destruct t as [|b4 t]; [reflexivity|]. cbn [app]. destruct (continuation b4); [destruct t; discriminate|discriminate].
Qed.
(** A part of a character that more bytes would complete, or nothing. *)
Definition cut (p : str) : Prop := p = [] \/ exists c q, scalar c /\ q <> [] /\ p <> [] /\ p ++ q = utf8_bytes c.
Lemma from_found : forall n s, Forall (fun x => 0 <= x < 256) s -> (List.length s <= n)%nat ->
  match from_bytes true n s with Some cs => Forall scalar cs /\ exists p, s = utf8 cs ++ p /\ cut p | None => True end.
Proof.
  induction n as [|n IH]; intros s F L; [destruct s; [|cbn in L; lia]|destruct s as [|b t]]; cbn [from_bytes]; try (split; [constructor|]; exists []; split; [reflexivity|now left]).
  assert (R := read_found b t F). destruct (read_char true b t) as [c r| |]; [|exact I|].
  - destruct R as [S E]. pose proof (bytes_nonempty c) as NE.
    assert (LR : (List.length r <= n)%nat) by (apply (f_equal (@List.length Z)) in E; rewrite app_length in E; cbn in E, L; destruct (utf8_bytes c); [congruence|]; cbn in E; lia).
    assert (FR : Forall (fun x => 0 <= x < 256) r) by (rewrite E in F; apply Forall_app in F; apply F).
    specialize (IH r FR LR). destruct (from_bytes true n r) as [cs|]; [|exact I]. destruct IH as (FC & p & -> & C). split; [now constructor|]. exists p. split; [|exact C].
    rewrite E. cbn [utf8 flat_map]. now rewrite <- app_assoc.
  - destruct R as (c & q & S & N & E). split; [constructor|]. exists (b :: t). split; [reflexivity|]. right. exists c, q. repeat split; auto. discriminate.
Qed.
Lemma from_cut strict n cs p : Forall scalar cs -> cut p -> (List.length (utf8 cs ++ p) <= n)%nat -> from_bytes strict n (utf8 cs ++ p) = Some cs.
Proof.
  intros F C L. rewrite from_utf8 by assumption. enough (from_bytes strict (n - List.length cs) p = Some []) as -> by now rewrite app_nil_r.
  destruct C as [->|(c & q & S & N & NP & E)]; [apply from_nil|]. destruct p as [|b t]; [contradiction|].
  destruct (n - List.length cs)%nat; [reflexivity|]. cbn [from_bytes]. now rewrite (read_prefix strict c b t q S N E).
Qed.

(** ** UTF-8 can be read in one way only. *)
Theorem C95_utf8_injective : forall a b, Forall scalar a -> Forall scalar b -> utf8 a = utf8 b -> a = b.
Proof.
  intros a b A B E.
  pose proof (from_utf8 true a [] (List.length (utf8 a ++ [])) A ltac:(lia)) as P.
  pose proof (from_utf8 true b [] (List.length (utf8 b ++ [])) B ltac:(lia)) as Q.
  rewrite E in P. rewrite P in Q. rewrite !from_nil, !app_nil_r in Q. congruence.
Qed.
Print Assumptions C95_utf8_injective.

(** ** Every character of the text is converted, nothing else changes. *)
Theorem C95_characters : forall strict f cs,
  Forall (fun c => scalar c /\ c <> 0) cs -> (forall c, scalar c -> c <> 0 -> scalar (f c) /\ f c <> 0) ->
  convertCase strict f (utf8 cs) = utf8 (map f cs).
Proof.
  intros strict f cs F Hf.
  assert (S : Forall scalar cs) by (revert F; apply Forall_impl; tauto).
  assert (N : ~ In 0 cs) by (intros I; rewrite Forall_forall in F; apply F in I; tauto).
  unfold convertCase, multiByteStringToWideString. rewrite cstr_keep by (apply utf8_nonul; auto).
  pose proof (from_utf8 strict cs [] (List.length (utf8 cs)) S) as P. rewrite app_nil_r in P.
  rewrite P, from_nil, app_nil_r by lia.
  unfold wideStringToMultiByteString. rewrite cstr_keep.
  2:{ intros I. apply in_map_iff in I as (c & E & I). rewrite Forall_forall in F. destruct (F c I).
      destruct (Hf c); auto. }
  rewrite to_utf8; auto. apply Forall_map. revert F. apply Forall_impl. intros c [A B]. apply Hf; auto.
Qed.
Print Assumptions C95_characters.

(** Converting twice is converting once, as far as this holds of characters. *)
Theorem C95_idempotent : forall strict f cs,
  Forall (fun c => scalar c /\ c <> 0) cs -> (forall c, scalar c -> c <> 0 -> scalar (f c) /\ f c <> 0) ->
  (forall c, f (f c) = f c) ->
  convertCase strict f (convertCase strict f (utf8 cs)) = convertCase strict f (utf8 cs).
Proof.
  intros strict f cs F Hf I. rewrite (C95_characters strict f cs F Hf).
  rewrite C95_characters; auto.
  - rewrite map_map. f_equal. apply map_ext. auto.
  - apply Forall_map. revert F. apply Forall_impl. intros c [A B]. apply Hf; auto.
Qed.
Print Assumptions C95_idempotent.

(** On ASCII texts this is the conversion of the letters (as in C38). *)
Lemma utf8_ascii : forall cs, Forall (fun c => 0 <= c < 128) cs -> utf8 cs = cs.
Proof.
  induction 1; auto. cbn [utf8 flat_map]. fold (utf8 l). rewrite IHForall. unfold utf8_bytes.
  rewrite ltb_t by lia. reflexivity.
Qed.
Theorem C95_ascii : forall strict f s, Forall (fun c => 0 < c < 128) s ->
  (forall c, 0 < c < 128 -> 0 < f c < 128) ->
  convertCase strict f s = map f s.
Proof.
  intros strict f s F Hf.
  set (g := fun c => if (0 <? c) && (c <? 128) then f c else c).
  assert (E : map f s = map g s).
  { apply map_ext_in. intros c I. rewrite Forall_forall in F. specialize (F c I). cbn in F. unfold g. zb. auto. }
  assert (U : utf8 s = s) by (apply utf8_ascii; revert F; apply Forall_impl; intros; lia).
  transitivity (convertCase strict g (utf8 s)).
  - rewrite U. unfold convertCase. f_equal. apply map_ext_in. intros c I. unfold g.
    assert (IN : In c s).
    { revert I. unfold multiByteStringToWideString. rewrite cstr_keep.
      2:{ intros I0; rewrite Forall_forall in F; apply F in I0; cbn in I0; lia. }
      pose proof (from_utf8 strict s [] (List.length (utf8 s))) as P. rewrite app_nil_r, U in P.
      rewrite P, from_nil, app_nil_r; auto. revert F; apply Forall_impl. unfold scalar; intros; lia. }
    rewrite Forall_forall in F. specialize (F c IN). cbn in F. zb. auto.
  - rewrite C95_characters, E.
    + apply utf8_ascii. apply Forall_map. revert F. apply Forall_impl. intros c H. unfold g. zb. cbn [andb].
      specialize (Hf c H). lia.
    + revert F. apply Forall_impl. unfold scalar; intros; lia.
    + intros c S N. unfold g. destruct (Z.ltb_spec 0 c), (Z.ltb_spec c 128); cbn [andb]; auto.
      specialize (Hf c ltac:(lia)). unfold scalar. lia.
Qed.
Print Assumptions C95_ascii.

(** ** Texts that are not UTF-8 *)

(** A byte that cannot begin a character: the whole text is lost. *)
Theorem C95_invalid_refuted : forall strict f cs b r,
  Forall (fun c => scalar c /\ c <> 0) cs -> 128 <= b < 194 \/ 245 <= b ->
  convertCase strict f (utf8 cs ++ b :: r) = [].
Proof.
  intros strict f cs b r F B.
  assert (S : Forall scalar cs) by (revert F; apply Forall_impl; tauto).
  assert (N : ~ In 0 cs) by (intros I; rewrite Forall_forall in F; apply F in I; tauto).
  unfold convertCase, multiByteStringToWideString.
  assert (C : cstr (utf8 cs ++ b :: r) = utf8 cs ++ b :: cstr r).
  { pose proof (utf8_nonul cs S N) as U. induction (utf8 cs) as [|x u IH]; cbn.
    - rewrite eqb_f by lia. auto.
    - rewrite eqb_f by (intros ->; apply U; cbn; auto). rewrite IH; auto. intros I; apply U; cbn; auto. }
  rewrite C.
  rewrite from_utf8 by auto.
  match goal with |- context [from_bytes strict ?n (b :: _)] => destruct n as [|k] eqn:En end.
  { exfalso. rewrite app_length in En. cbn in En.
    assert (L : (List.length cs <= List.length (utf8 cs))%nat); [|lia].
    clear. induction cs as [|c cs IH]; cbn; auto. rewrite app_length. pose proof (bytes_nonempty c).
    destruct (utf8_bytes c); [congruence|cbn; fold (utf8 cs); lia]. }
  cbn [from_bytes].
  assert (R : read_char strict b (cstr r) = Invalid).
  { unfold read_char. destruct B as [B|B]; zb; auto. }
  rewrite R. reflexivity.
Qed.
Print Assumptions C95_invalid_refuted.

(** Every text: the characters before a cut one are converted and the cut one
    is dropped; a text that is anything else than characters and perhaps a cut
    one is lost as a whole. (libstdc++ that refuses surrogates.) *)
Theorem C95_every_text : forall f s, Forall (fun x => 0 < x < 256) s -> (forall c, scalar c -> c <> 0 -> scalar (f c) /\ f c <> 0) ->
  (exists cs p, Forall (fun c => scalar c /\ c <> 0) cs /\ cut p /\ s = utf8 cs ++ p /\ convertCase true f s = utf8 (map f cs)) \/
  ((forall cs p, Forall scalar cs -> cut p -> s <> utf8 cs ++ p) /\ convertCase true f s = []).
Proof.
  intros f s F Hf. assert (F' : Forall (fun x => 0 <= x < 256) s) by (revert F; apply Forall_impl; lia).
  assert (NZ : ~ In 0 s) by (intros I; rewrite Forall_forall in F; apply F in I; lia).
  assert (P := from_found (List.length s) s F' (le_n _)). unfold convertCase, multiByteStringToWideString. rewrite cstr_keep by exact NZ.
  destruct (from_bytes true (List.length s) s) as [cs|] eqn:E.
  - left. destruct P as (FS & p & -> & C). exists cs, p.
    assert (FN : Forall (fun c => scalar c /\ c <> 0) cs).
    { rewrite Forall_forall in *. intros c I. split; [now apply FS|]. intros ->. apply NZ. apply in_or_app. left. unfold utf8. apply in_flat_map. exists 0. split; [exact I|]. now left. }
    split; [exact FN|]. split; [exact C|]. split; [reflexivity|]. unfold wideStringToMultiByteString.
    assert (FM : Forall (fun c => scalar c /\ c <> 0) (map f cs)) by (apply Forall_map; revert FN; apply Forall_impl; intros c [A B]; auto).
    rewrite cstr_keep; [rewrite to_utf8; [reflexivity|revert FM; apply Forall_impl; tauto]|]. intros I. rewrite Forall_forall in FM. apply FM in I. tauto.
  - right. split; [|reflexivity]. intros cs p FS C ->. rewrite (from_cut true) in E; [discriminate|exact FS|exact C|apply le_n].
Qed.
Print Assumptions C95_every_text.
(** "a", an overlong "A": lost; "a" and the first two bytes of the euro sign:
    the "a" stays. *)
Example C95_every_text_ex : convertCase true (fun c => c - 32) [97; 193; 129] = [] /\ convertCase true (fun c => c - 32) [97; 224; 130; 129] = [] /\ convertCase true (fun c => c - 32) [97; 226; 130] = [65] /\
  cut [226; 130].
Proof. repeat split; try reflexivity. right. exists 8364, [172]. repeat split; try discriminate. left. lia. Qed.

(** A text with a NUL character is cut there. *)
Theorem C95_nul_refuted : forall strict f s t, convertCase strict f (s ++ 0 :: t) = convertCase strict f (s ++ [0]).
Proof.
  intros strict f s t. unfold convertCase, multiByteStringToWideString.
  replace (cstr (s ++ 0 :: t)) with (cstr (s ++ [0])); auto.
  induction s as [|x s IH]; cbn; auto. rewrite IH; auto.
Qed.
Print Assumptions C95_nul_refuted.

(** ** Examples: Greek and an emoji; sigma is 963, capital sigma 931. *)
Definition greek (c : Z) : Z := if (945 <=? c) && (c <=? 969) && negb (c =? 962) then c - 32 else c.
Example ex_greek : convertCase true greek [207; 131; 206; 177; 240; 159; 152; 128; 33] = [206; 163; 206; 145; 240; 159; 152; 128; 33].
Proof. vm_compute. reflexivity. Qed.
Example ex_greek_utf8 : utf8 [963; 945; 128512; 33] = [207; 131; 206; 177; 240; 159; 152; 128; 33] /\
  Forall (fun c => scalar c /\ c <> 0) [963; 945; 128512; 33].
Proof. split; [vm_compute; reflexivity|]. repeat constructor; unfold scalar; lia. Qed.
(** Latin-1 text: "caf" and the byte 233 *)
Example ex_latin1 : convertCase true greek [99; 97; 102; 233] = T "caf".
Proof. vm_compute. reflexivity. Qed.
Example ex_latin1_lost : convertCase true greek [99; 97; 102; 233; 33] = [].
Proof. vm_compute. reflexivity. Qed.
Example ex_nul : convertCase true greek [97; 0; 98] = [97].
Proof. vm_compute. reflexivity. Qed.
