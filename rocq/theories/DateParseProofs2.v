(** Date.parse: what the token loop does with numbers, words and separators,
    and the texts written in the usual formats. *)

From Coq Require Import ZArith List Lia Bool String.
From Verif Require Import Base Bits CppText TextSpec TextLemmas StringModel StringSpec StringProofs DateSpec DateModel DateProofs DateParseProofs.
Import ListNotations.
Open Scope string_scope.
Open Scope list_scope.
Open Scope Z_scope.
Local Strategy 1000 [broken_down instant civil epoch_day].

Definition L (m : cpp) (k : nat) (pre rest : str) (p : pstate) : outcome pstate :=
  parse_loop m k (pre ++ rest) (zlen pre) p.
(** enough fuel, small string *)
Definition room (k : nat) (pre rest : str) : Prop := (List.length rest <= k)%nat /\ zlen pre + zlen rest <= int_max.

Lemma znth_mid (pre : str) c rest : znth (pre ++ c :: rest) (zlen pre) = Some c.
Proof.
  unfold znth, zlen. destruct (Z.ltb_spec (Z.of_nat (List.length pre)) 0); [lia|].
  rewrite Nat2Z.id, nth_error_app2, Nat.sub_diag by lia. reflexivity.
Qed.
Lemma small_app (a b : str) : zlen a + zlen b <= int_max -> small (a ++ b).
Proof. intros H. unfold small. rewrite zlen_app. lia. Qed.
Lemma charAt_mid pre c rest : zlen pre + zlen (c :: rest) <= int_max -> charAt (pre ++ c :: rest) (zlen pre) = Ok c.
Proof. intros H. apply charAt_znth; [now apply small_app|apply znth_mid]. Qed.
Lemma app_cons (pre : str) c rest : pre ++ c :: rest = (pre ++ [c]) ++ rest.
Proof. rewrite <- app_assoc. reflexivity. Qed.
Lemma zlen_snoc (pre : str) c : zlen (pre ++ [c]) = zlen pre + 1.
Proof. rewrite zlen_app. reflexivity. Qed.

Lemma L_end m k pre p : L m k pre [] p = Ok p.
Proof.
  unfold L. rewrite app_nil_r. destruct k; cbn [parse_loop]; destruct (Z.leb_spec (zlen pre) (zlen pre)); (reflexivity || lia).
Qed.
Lemma L_open k pre c rest : room k pre (c :: rest) -> exists k', k = S k' /\ (zlen (pre ++ c :: rest) <=? zlen pre) = false.
Proof.
  intros [F _]. destruct k as [|k']; [cbn in F; lia|]. exists k'. split; [reflexivity|].
  rewrite zlen_app, zlen_cons. apply Z.leb_gt. pose proof (zlen_nonneg rest). lia.
Qed.
Lemma room_next k pre c rest : room (S k) pre (c :: rest) -> room k (pre ++ [c]) rest.
Proof. intros [F S]. split; [cbn in F; lia|]. rewrite zlen_snoc. rewrite zlen_cons in S. lia. Qed.

Lemma L_blank m k pre c rest p : room k pre (c :: rest) -> c = 32 \/ c = 44 ->
  exists k', room k' (pre ++ [c]) rest /\ L m k pre (c :: rest) p = L m k' (pre ++ [c]) rest p.
Proof.
  intros R B. destruct (L_open k pre c rest R) as (k' & -> & E). exists k'. split; [now apply room_next|].
  unfold L. cbn [parse_loop]. rewrite E, charAt_mid by apply R. cbn [bind].
  replace ((schar c <=? 32) || (schar c =? 44)) with true by (destruct B; subst; reflexivity).
  now rewrite zlen_snoc, <- app_cons.
Qed.
Lemma L_sep m k pre c rest p : room k pre (c :: rest) -> In c [47; 58; 43; 45] ->
  exists k', room k' (pre ++ [c]) rest /\ L m k pre (c :: rest) p = L m k' (pre ++ [c]) rest (w_prev p c).
Proof.
  intros R B. destruct (L_open k pre c rest R) as (k' & -> & E). exists k'. split; [now apply room_next|].
  unfold L. cbn [parse_loop]. rewrite E, charAt_mid by apply R. cbn [bind].
  rewrite zlen_snoc, <- app_cons.
  destruct B as [<-|[<-|[<-|[<-|[]]]]]; reflexivity.
Qed.

(** *** Numbers *)
Definition digits (cs ds : list Z) : Prop := Forall2 (is_digit 10) cs ds.
Lemma is_digit_10 c d : is_digit 10 c d -> 48 <= c <= 57 /\ d = c - 48 /\ schar c = c.
Proof.
  unfold is_digit, digit_val, is_digit_c, is_lower_c, is_upper_c, schar. intros [H D]. revert H.
  destruct (Z.leb_spec 48 c), (Z.leb_spec c 57), (Z.leb_spec 97 c), (Z.leb_spec c 122), (Z.leb_spec 65 c), (Z.leb_spec c 90);
    cbn [andb]; intros E; try discriminate; assert (forall a b : Z, Some a = Some b -> a = b) as K by congruence; apply K in E; subst d;
    destruct (Z.ltb_spec c 128); lia.
Qed.
Definition value (n : Z) (ds : list Z) : Z := fold_left (fun a d => a * 10 + d) ds n.
Lemma value_mono ds : Forall (fun d => 0 <= d) ds -> forall n, 0 <= n -> n <= value n ds.
Proof.
  induction 1 as [|d ds D F IH]; intros n N; [cbn; lia|]. cbn [value fold_left]. 
  specialize (IH (n * 10 + d) ltac:(lia)). unfold value in IH. lia.
Qed.
Lemma digits_pos cs ds : digits cs ds -> Forall (fun d => 0 <= d) ds.
Proof. induction 1 as [|c d cs ds D F IH]; constructor; auto. apply is_digit_10 in D. lia. Qed.
Definition not_digit (rest : str) : Prop := match rest with [] => True | c :: _ => ~ 48 <= schar c <= 57 end.
Lemma gsn_digits m cs ds : digits cs ds -> cs <> [] -> forall k pre rest n, 0 <= n -> value n ds <= int_max ->
  (List.length cs < k)%nat -> zlen pre + zlen (cs ++ rest) <= int_max -> not_digit rest ->
  getSequenceNumber m k (pre ++ cs ++ rest) (zlen pre) n = Ok (value n ds, zlen pre + zlen cs).
Proof.
  induction 1 as [|c d cs ds D F IH]; intros NE k pre rest n N V K Z0 ND; [congruence|].
  destruct k as [|k]; [cbn in K; lia|]. cbn [getSequenceNumber app].
  rewrite charAt_mid by exact Z0. cbn [bind]. apply is_digit_10 in D as (C & -> & SC). rewrite SC.
  replace ((48 <=? c) && (c <=? 57)) with true by lia.
  cbn [value fold_left] in V. fold (value (n * 10 + (c - 48)) ds) in V.
  pose proof (value_mono ds (digits_pos _ _ F) (n * 10 + (c - 48)) ltac:(lia)) as VM.
  unfold int_max in *.
  unfold smul, sadd. rewrite sres_ok by (unfold in_s, smin, smax; change (2 ^ (32 - 1)) with 2147483648; lia).
  cbn [bind]. rewrite sres_ok by (unfold in_s, smin, smax; change (2 ^ (32 - 1)) with 2147483648; lia). cbn [bind].
  rewrite zlen_app in Z0. 
  destruct cs as [|c' cs].
  - inversion F; subst. cbn [app value fold_left]. rewrite zlen_app, zlen_cons. change (zlen [c]) with 1.
    destruct rest as [|r rest].
    + change (zlen []) with 0. destruct (Z.ltb_spec (zlen pre + 1) (zlen pre + (0 + 1))); [lia|reflexivity].
    + pose proof (zlen_cons r rest). pose proof (zlen_nonneg rest). destruct (Z.ltb_spec (zlen pre + 1) (zlen pre + (zlen (r :: rest) + 1))); [|lia].
      destruct k as [|k]; [cbn in K; lia|]. cbn [getSequenceNumber].
      rewrite app_cons, <- (zlen_snoc pre c), charAt_mid.
      2: { rewrite zlen_snoc. change (zlen [c]) with 1 in Z0. unfold int_max. lia. }
      cbn [bind]. cbn in ND. 
      replace ((48 <=? schar r) && (schar r <=? 57)) with false by lia. now rewrite zlen_snoc.
  - rewrite zlen_app, zlen_cons, zlen_app, zlen_cons. pose proof (zlen_nonneg cs). pose proof (zlen_nonneg rest).
    destruct (Z.ltb_spec (zlen pre + 1) (zlen pre + (zlen cs + 1 + zlen rest + 1))); [|lia].
    rewrite app_cons, <- (zlen_snoc pre c), IH; [ |discriminate|lia|unfold int_max; lia|cbn in *; lia| |exact ND].
    + rewrite zlen_snoc, !zlen_cons. cbn [value fold_left]. f_equal. f_equal. lia.
    + rewrite zlen_snoc, zlen_app. rewrite (zlen_cons c (c' :: cs)) in Z0. unfold int_max. lia.
Qed.

(** the character looked at after a number *)
Definition next (cs rest : str) : Z := match rest with [] => hd 0 cs | c :: _ => schar c end.
Definition at_end (rest : str) : bool := match rest with [] => true | _ => false end.
Lemma L_num m k pre cs ds rest p p' : room k pre (cs ++ rest) -> digits cs ds -> cs <> [] -> value 0 ds <= int_max -> not_digit rest ->
  number m p (value 0 ds) (next cs rest) (at_end rest) = Ok p' ->
  exists k', room k' (pre ++ cs) rest /\ L m k pre (cs ++ rest) p = L m k' (pre ++ cs) rest p'.
Proof.
  intros R D NE V ND NM. destruct cs as [|c cs]; [congruence|].
  destruct (L_open k pre c (cs ++ rest) R) as (k' & -> & E). exists k'.
  assert (R' : room k' (pre ++ c :: cs) rest).
  { destruct R as [F S]. split; [cbn in F; rewrite app_length in F; lia|]. rewrite !zlen_app in *. lia. }
  split; [exact R'|]. unfold L. change ((c :: cs) ++ rest) with (c :: cs ++ rest) in *. cbn [parse_loop].
  rewrite E, charAt_mid by apply R. cbn [bind].
  assert (C : 48 <= c <= 57 /\ schar c = c) by (inversion D as [|? ? ? ? D1]; subst; apply is_digit_10 in D1; lia).
  destruct C as [C SC]. rewrite SC. replace ((c <=? 32) || (c =? 44)) with false by lia. replace ((48 <=? c) && (c <=? 57)) with true by lia.
  change (c :: cs ++ rest) with ((c :: cs) ++ rest).
  rewrite (gsn_digits m (c :: cs) ds D NE (S (List.length (pre ++ (c :: cs) ++ rest))) pre rest 0);
    [|lia|exact V|rewrite !app_length; lia|apply R|exact ND].
  cbn [bind]. rewrite app_assoc, zlen_app, (zlen_app pre (c :: cs)).
  assert (B2 : (if zlen pre + zlen (c :: cs) <? zlen pre + zlen (c :: cs) + zlen rest
                then charAt ((pre ++ c :: cs) ++ rest) (zlen pre + zlen (c :: cs)) else Ok c)
               = Ok (match rest with [] => c | r :: _ => r end)).
  { destruct rest as [|r rest].
    - change (zlen []) with 0. destruct (Z.ltb_spec (zlen pre + zlen (c :: cs)) (zlen pre + zlen (c :: cs) + 0)); [lia|reflexivity].
    - pose proof (zlen_cons r rest). pose proof (zlen_nonneg rest).
      destruct (Z.ltb_spec (zlen pre + zlen (c :: cs)) (zlen pre + zlen (c :: cs) + zlen (r :: rest))); [|lia].
      rewrite <- zlen_app, charAt_mid; [reflexivity|apply R']. }
  rewrite B2. cbn [bind].
  assert (EE : (zlen pre + zlen (c :: cs) + zlen rest <=? zlen pre + zlen (c :: cs)) = at_end rest).
  { destruct rest as [|r rest]; cbn [at_end]; [apply Z.leb_le; change (zlen []) with 0; lia|apply Z.leb_gt].
    pose proof (zlen_cons r rest). pose proof (zlen_nonneg rest). lia. }
  rewrite EE.
  assert (NX : schar (match rest with [] => c | r :: _ => r end) = next (c :: cs) rest).
  { destruct rest; cbn [next hd]; [exact SC|reflexivity]. }
  rewrite NX, NM. cbn [bind]. reflexivity.
Qed.

(** *** Words *)
Definition letters (w : str) : Prop := Forall (fun c => is_letter c = true) w.
Lemma letter_schar c : is_letter c = true -> schar c = c /\ 65 <= c <= 122.
Proof.
  unfold is_letter, schar. destruct (Z.leb_spec 65 c), (Z.leb_spec c 90), (Z.leb_spec 97 c), (Z.leb_spec c 122);
    cbn [andb orb]; intros E; try discriminate; destruct (Z.ltb_spec c 128); lia.
Qed.
Definition not_letter (rest : str) : Prop := match rest with [] => True | c :: _ => is_letter (schar c) = false end.
Lemma gsc_letters w : letters w -> w <> [] -> forall k pre rest acc,
  (List.length w < k)%nat -> zlen pre + zlen (w ++ rest) <= int_max -> not_letter rest ->
  getSequenceChar k (pre ++ w ++ rest) (zlen pre) acc = Ok (acc ++ w, zlen pre + zlen w).
Proof.
  induction 1 as [|c w C F IH]; intros NE k pre rest acc K Z0 ND; [congruence|].
  destruct k as [|k]; [cbn in K; lia|]. cbn [getSequenceChar app].
  rewrite charAt_mid by exact Z0. cbn [bind]. rewrite (proj1 (letter_schar c C)), C.
  rewrite zlen_app in Z0.
  destruct w as [|c' w].
  - cbn [app]. rewrite zlen_app, zlen_cons. change (zlen [c]) with 1.
    destruct rest as [|r rest].
    + change (zlen []) with 0. destruct (Z.ltb_spec (zlen pre + 1) (zlen pre + (0 + 1))); [lia|reflexivity].
    + pose proof (zlen_cons r rest). pose proof (zlen_nonneg rest). destruct (Z.ltb_spec (zlen pre + 1) (zlen pre + (zlen (r :: rest) + 1))); [|lia].
      destruct k as [|k]; [cbn in K; lia|]. cbn [getSequenceChar].
      rewrite app_cons, <- (zlen_snoc pre c), charAt_mid.
      2: { rewrite zlen_snoc. change (zlen [c]) with 1 in Z0. lia. }
      cbn [bind]. cbn in ND. rewrite ND. reflexivity.
  - rewrite zlen_app, zlen_cons, zlen_app, zlen_cons. pose proof (zlen_nonneg w). pose proof (zlen_nonneg rest).
    destruct (Z.ltb_spec (zlen pre + 1) (zlen pre + (zlen w + 1 + zlen rest + 1))); [|lia].
    rewrite app_cons, <- (zlen_snoc pre c), IH; [ |discriminate|cbn in *; lia| |exact ND].
    + rewrite zlen_snoc, !zlen_cons, <- app_assoc. cbn [app]. f_equal. f_equal. lia.
    + rewrite zlen_snoc, zlen_app. rewrite (zlen_cons c (c' :: w)) in Z0. lia.
Qed.
Lemma L_word m k pre w rest p p' a : room k pre (w ++ rest) -> letters w -> w <> [] -> not_letter rest ->
  lookup m w (rev wordTable) = Ok (Some a) -> word_action p a = Ok p' ->
  exists k', room k' (pre ++ w) rest /\ L m k pre (w ++ rest) p = L m k' (pre ++ w) rest p'.
Proof.
  intros R W NE NL LK WA. destruct w as [|c w]; [congruence|].
  destruct (L_open k pre c (w ++ rest) R) as (k' & -> & E). exists k'.
  assert (R' : room k' (pre ++ c :: w) rest).
  { destruct R as [F S]. split; [cbn in F; rewrite app_length in F; lia|]. rewrite !zlen_app in *. lia. }
  split; [exact R'|]. unfold L. change ((c :: w) ++ rest) with (c :: w ++ rest) in *. cbn [parse_loop].
  rewrite E, charAt_mid by apply R. cbn [bind].
  assert (C : is_letter c = true) by (inversion W; auto). destruct (letter_schar c C) as [SC CR]. rewrite SC.
  replace ((c <=? 32) || (c =? 44)) with false by lia. replace ((48 <=? c) && (c <=? 57)) with false by lia.
  replace ((c =? 47) || (c =? 58) || (c =? 43) || (c =? 45)) with false by lia.
  change (c :: w ++ rest) with ((c :: w) ++ rest).
  rewrite (gsc_letters (c :: w) W NE (S (List.length (pre ++ (c :: w) ++ rest))) pre rest []);
    [|rewrite !app_length; lia|apply R|exact NL].
  cbn [bind]. destruct (Z.leb_spec (zlen pre + zlen (c :: w)) (zlen pre)).
  { pose proof (zlen_cons c w). pose proof (zlen_nonneg w). lia. }
  rewrite app_nil_l, LK. cbn [bind]. rewrite WA. cbn [bind]. now rewrite app_assoc, zlen_app.
Qed.

(** The table is searched ignoring case. *)
Lemma letter_of_lower c l : 97 <= l <= 122 -> letter_of c l -> c_tolower c = l /\ is_letter c = true.
Proof.
  unfold letter_of, c_tolower, is_letter. intros H [->| ->];
    destruct (Z.leb_spec 65 l), (Z.leb_spec l 90), (Z.leb_spec 97 l), (Z.leb_spec l 122),
      (Z.leb_spec 65 (l - 32)), (Z.leb_spec (l - 32) 90), (Z.leb_spec 97 (l - 32)), (Z.leb_spec (l - 32) 122);
    cbn [andb orb]; split; (lia || reflexivity).
Qed.
Lemma variant_lower n w : Forall (fun l => 97 <= l <= 122) n -> Forall2 letter_of w n ->
  map c_tolower w = n /\ letters w /\ List.length w = List.length n.
Proof.
  intros F V. induction V as [|c l w n H V IH]; [repeat constructor|].
  inversion F; subst. destruct (letter_of_lower c l) as [A B]; auto. destruct (IH H3) as (P & Q & R0).
  cbn. rewrite A, P, R0. repeat split; auto. constructor; auto.
Qed.
Lemma lookup_lower m w t : letters w -> small w -> lookup m w t = lookup m (map c_tolower w) t.
Proof.
  intros W S. assert (ZM : zlen (map c_tolower w) = zlen w) by apply zlen_map.
  assert (B : in_s 32 (0 + zlen w)).
  { unfold small, int_max in S. pose proof (zlen_nonneg w). unfold in_s, smin, smax. change (2 ^ (32 - 1)) with 2147483648. lia. }
  assert (SW : forall v : str, subString v 0 (0 + zlen v) = Ok v).
  { intros v. destruct (subString_in v 0 (0 + zlen v)) as (u & -> & a & b & E & A & U); [pose proof (zlen_nonneg v); lia|lia|].
    f_equal. pose proof (f_equal zlen E) as EL. rewrite !zlen_app in EL. pose proof (zlen_nonneg b).
    destruct a; [|rewrite zlen_cons in A; pose proof (zlen_nonneg a); lia].
    destruct b; [|rewrite zlen_cons in EL; pose proof (zlen_nonneg b); change (zlen (@nil Z)) with 0 in EL; lia]. cbn in E. now rewrite app_nil_r in E. }
  assert (NN : no_nul w).
  { eapply Forall_impl; [|exact W]. cbn. intros c C. apply letter_schar in C. lia. }
  assert (NM : no_nul (map c_tolower w)).
  { clear - W. induction W as [|c w C F IH]; constructor; auto. apply letter_schar in C. unfold c_tolower. destruct (_ && _); lia. }
  assert (IDEM : map c_tolower (map c_tolower w) = map c_tolower w).
  { rewrite map_map. apply map_ext. intros c. unfold c_tolower.
    destruct (Z.leb_spec 65 c), (Z.leb_spec c 90); cbn [andb];
    repeat match goal with |- context [?a <=? ?b] => destruct (Z.leb_spec a b) end; cbn [andb]; lia. }
  induction t as [|[x a] t IH]; cbn [lookup]; [reflexivity|]. rewrite IH.
  unfold regionMatches. rewrite ZM. unfold sadd. rewrite sres_ok by exact B. cbn [bind].
  pose proof (SW (map c_tolower w)) as SM. rewrite ZM in SM. rewrite SW, SM.
  destruct (subString x 0 (0 + zlen w)) as [u| | |]; cbn [bind]; try reflexivity.
  unfold compareToIgnoreCase, strcasecmp. rewrite (cstr_id w NN), (cstr_id _ NM), IDEM. reflexivity.
Qed.

Definition lower_b (w : str) : bool := forallb (fun c => (97 <=? c) && (c <=? 122)) w.
Lemma lower_b_ok w : lower_b w = true -> Forall (fun l => 97 <= l <= 122) w.
Proof. unfold lower_b. rewrite forallb_forall. intros H. apply Forall_forall. intros c C. specialize (H c C). cbn in H. lia. Qed.
Definition action_is (m : cpp) (w : str) (a : Z) : bool :=
  match lookup m w (rev wordTable) with Ok (Some b) => a =? b | _ => false end.
Definition modes : list cpp := [ISO; HW].
Lemma word_of m n w a : lower_b n = true -> action_is ISO n a = true -> action_is HW n a = true -> small w -> Forall2 letter_of w n ->
  letters w /\ List.length w = List.length n /\ lookup m w (rev wordTable) = Ok (Some a).
Proof.
  intros LB A1 A2 SW V. destruct (variant_lower n w (lower_b_ok n LB) V) as (P & Q & R0). split; [exact Q|]. split; [exact R0|].
  rewrite lookup_lower, P by assumption.
  assert (A : action_is m n a = true) by (destruct m; assumption). revert A. unfold action_is. clear.
  destruct (lookup m n (rev wordTable)) as [[b|]| | |]; try discriminate. intros E. apply Z.eqb_eq in E. now subst.
Qed.
Definition abbreviations_ok (name : str) (a : Z) : bool :=
  forallb (fun n => let w := firstn n name in lower_b w && (action_is ISO w a && action_is HW w a)) (seq 3 (List.length name - 2)).
Lemma abbreviation m name w a : abbreviations_ok name a = true -> small w -> abbreviates name w ->
  letters w /\ w <> [] /\ lookup m w (rev wordTable) = Ok (Some a).
Proof.
  unfold abbreviations_ok. rewrite forallb_forall. intros H SW (n & N & V). specialize (H n). cbv zeta in H.
  assert (Hn : In n (seq 3 (List.length name - 2))) by (apply in_seq; lia). apply H in Hn. clear H.
  apply andb_prop in Hn as [H1 H2]. apply andb_prop in H2 as [H2 H3].
  destruct (word_of m _ w a H1 H2 H3 SW V) as (P & Q & R0). split; [exact P|]. split; [|exact R0].
  intros ->. rewrite firstn_length in Q. cbn in Q. lia.
Qed.
Lemma months_checked : forallb (fun k => match nth_error month_names k with Some name => abbreviations_ok name (Z.of_nat k + 2) | None => false end) (seq 0 12) = true.
Proof. vm_compute. reflexivity. Qed.
Lemma days_checked : forallb (fun name => abbreviations_ok name 0) day_names = true.
Proof. vm_compute. reflexivity. Qed.
Lemma month_lookup m k w : 0 <= k <= 11 -> small w -> month_word k w ->
  letters w /\ w <> [] /\ lookup m w (rev wordTable) = Ok (Some (k + 2)).
Proof.
  intros K SW (name & N & A). pose proof months_checked as M. rewrite forallb_forall in M.
  specialize (M (Z.to_nat k)). rewrite in_seq, N, Z2Nat.id in M by lia. apply (abbreviation m name); auto. apply M. lia.
Qed.
Lemma day_lookup m w : small w -> day_word w -> letters w /\ w <> [] /\ lookup m w (rev wordTable) = Ok (Some 0).
Proof.
  intros SW (name & N & A). pose proof days_checked as M. rewrite forallb_forall in M. apply (abbreviation m name); auto.
Qed.
Lemma greenwich_lookup m w : small w -> greenwich w -> letters w /\ w <> [] /\ lookup m w (rev wordTable) = Ok (Some 10000).
Proof.
  intros SW [G|[G|G]];
  (eapply word_of in G; [|vm_compute; reflexivity|instantiate (1 := 10000); vm_compute; reflexivity|vm_compute; reflexivity|exact SW];
   destruct G as (P & Q & R0); split; [exact P|]; split; [intros ->; discriminate Q|exact R0]).
Qed.

(** *** The end of parse *)
Lemma mktime_proper off f : proper f -> -2147483648 <= f_year f <= 2147483647 -> mktime off f = (instant off f, f).
Proof.
  intros P Y. unfold mktime. rewrite broken_down_proper by exact P.
  assert (F : year_fits f = true) by (unfold year_fits, is_int, int_min, int_max; lia). now rewrite F.
Qed.

Definition filled (f : fields) (z q : Z) : pstate :=
  {| p_year := f_year f + 1900; p_month := f_month f; p_day := f_day f; p_hour := f_hour f; p_minute := f_minute f;
     p_second := f_second f; p_zone := z; p_prev := q |}.
Lemma instant_bound f : common f -> -70000000000 <= instant 0 f <= 9200000000000000.
Proof.
  intros [(A & B & C & D & E) Y]. unfold instant. rewrite (Z.div_small (f_month f)), (Z.mod_small (f_month f)), Z.add_0_r by lia.
  pose proof (year_day_bounds (f_year f + 1900) (f_month f) (f_day f) A B) as K.
  generalize dependent (epoch_day (f_year f + 1900) (f_month f) (f_day f)). intros e K.
  destruct (Z.ltb_spec (f_year f + 1900) 1970); lia.
Qed.
Lemma instant_off off f : instant off f = instant 0 f - off.
Proof. unfold instant. lia. Qed.
Lemma getOffset_ok off now : -86400 <= off <= 86400 -> sane_now now -> getOffsetFromUTC off now = Ok (- off).
Proof.
  intros O N. unfold getOffsetFromUTC. unfold sane_now in N. rewrite !localtime_near by lia.
  assert (A : forall o, mktime off (broken_down o now) = (instant off (broken_down o now), broken_down o now) \/ ~ -86400 <= o <= 86400).
  { intros o. destruct (Z_le_dec (-86400) o), (Z_le_dec o 86400); [|right; lia|right; lia|right; lia]. left.
    apply mktime_proper; [apply broken_down_ok|].
    pose proof (fits_near o now ltac:(lia) ltac:(lia)) as F. unfold year_fits, int_min, int_max in F. lia. }
  destruct (A 0) as [-> |]; [|lia]. destruct (A off) as [-> |]; [|lia]. cbn [fst].
  rewrite (instant_off off (broken_down 0 now)), (proj2 (broken_down_ok 0 now)), (proj2 (broken_down_ok off now)). f_equal. lia.
Qed.
Lemma sres64 m r : -9223372036854775808 <= r <= 9223372036854775807 -> sres m 64 r = Ok r.
Proof. intros H. apply sres_ok. unfold in_s, smin, smax. change (2 ^ (64 - 1)) with 9223372036854775808. lia. Qed.
Lemma sres32 m r : -2147483648 <= r <= 2147483647 -> sres m 32 r = Ok r.
Proof. intros H. apply sres_ok. unfold in_s, smin, smax. change (2 ^ (32 - 1)) with 2147483648. lia. Qed.
Lemma finish_ok m off now f z q : -86400 <= off <= 86400 -> sane_now now -> common f -> -100000 <= z <= 100000 ->
  finish m off now (filled f z q) = Ok (1000 * (if z =? -1 then instant off f else instant 0 f + 60 * z)).
Proof.
  intros O N C Z0. pose proof (instant_bound f C) as B. pose proof (instant_off off f) as IO. destruct C as [P Y].
  unfold finish, filled. cbn [p_year p_month p_day p_hour p_minute p_second p_zone].
  pose proof P as (P1 & P2 & P3 & P4 & P5). unfold int_min.
  replace ((f_year f + 1900 =? - 2147483648) || (f_month f <? 0) || (f_day f <? 0)) with false by lia.
  unfold default_century. destruct (Z.ltb_spec (f_year f + 1900) 100); [lia|]. cbn [bind].
  unfold ssub at 1. rewrite sres32 by lia. cbn [bind]. unfold nonneg.
  destruct (Z.ltb_spec (f_hour f) 0); [lia|]. destruct (Z.ltb_spec (f_minute f) 0); [lia|]. destruct (Z.ltb_spec (f_second f) 0); [lia|].
  replace (f_year f + 1900 - 1900) with (f_year f) by lia.
  assert (EF : {| f_year := f_year f; f_month := f_month f; f_day := f_day f; f_hour := f_hour f; f_minute := f_minute f; f_second := f_second f |} = f) by now destruct f.
  rewrite EF, (mktime_proper off f P) by lia. cbn [fst]. rewrite IO. generalize dependent (instant 0 f). intros i B IO.
  unfold smul, sadd, ssub. destruct (Z.eqb_spec z (-1)).
  - rewrite sres64 by lia. f_equal. lia.
  - rewrite getOffset_ok by assumption. cbn [bind]. rewrite sres32 by lia. cbn [bind]. rewrite sres64 by lia. cbn [bind].
    rewrite sres64 by lia. cbn [bind]. rewrite sres64 by lia. f_equal. lia.
Qed.

(** *** Texts without parentheses *)
Definition plain (s : str) : Prop := ~ In 40 s.
Lemma removeBracket_plain k s : small s -> plain s -> removeBracket k s = Ok s.
Proof.
  intros S P. assert (E : indexOf_char s 40 = -1).
  { destruct (indexOf_char_ok s 40) as [(A & B & C)|[A B]]; [lia| |exact A]. exfalso. apply P.
    apply occurs_char in B. unfold znth in B. destruct (_ <? 0); [discriminate|]. now apply nth_error_In in B. }
  destruct k; cbn [removeBracket]; rewrite E; reflexivity.
Qed.
Lemma parse_plain m off now s p r : s <> [] -> small s -> plain s -> L m (List.length s) [] s p_init = Ok p -> finish m off now p = r ->
  parse m off now s = r.
Proof.
  intros NE S P E F. unfold parse. destruct (Z.eqb_spec (zlen s) 0) as [Z0|_].
  { destruct s; [congruence|]. rewrite zlen_cons in Z0. pose proof (zlen_nonneg s). lia. }
  rewrite removeBracket_plain by assumption. cbn [bind]. unfold L in E. cbn [app] in E. change (zlen (@nil Z)) with 0 in E. rewrite E. exact F.
Qed.

(** *** The formats *)
Lemma numeral_digits s v : numeral 10 s v -> exists ds, digits s ds /\ s <> [] /\ value 0 ds = v.
Proof. intros (NE & ds & F & ->). exists ds. auto. Qed.
Lemma digits_plain cs ds : digits cs ds -> plain cs.
Proof. intros D H. induction D as [|c d cs ds C D IH]; [exact H|]. destruct H as [->|H]; [|auto]. apply is_digit_10 in C. lia. Qed.
Lemma letters_plain w : letters w -> plain w.
Proof. intros W H. unfold letters in W. rewrite Forall_forall in W. apply W in H. discriminate H. Qed.
Lemma plain_app a b : plain a -> plain b -> plain (a ++ b).
Proof. unfold plain. intros A B H. apply in_app_or in H. tauto. Qed.
Lemma digits_not_letter cs ds rest : digits cs ds -> cs <> [] -> not_letter (cs ++ rest).
Proof. intros D NE. destruct D as [|c d cs ds C D]; [congruence|]. cbn. apply is_digit_10 in C as (C & _ & ->). unfold is_letter. lia. Qed.
Lemma small_part (a b c : str) : small (a ++ b ++ c) -> small b.
Proof. unfold small. rewrite !zlen_app. pose proof (zlen_nonneg a). pose proof (zlen_nonneg c). lia. Qed.
Lemma to_byte_id n : 0 <= n <= 255 -> to_byte n = n.
Proof. intros H. unfold to_byte, uwrap. apply Z.mod_small. change (2 ^ 8) with 256. lia. Qed.

(** one step of the loop at a time *)
Definition steps (m : cpp) (pre rest : str) (p : pstate) (pre' rest' : str) (p' : pstate) : Prop :=
  forall k, room k pre rest -> exists k', room k' pre' rest' /\ L m k pre rest p = L m k' pre' rest' p'.
Lemma steps_trans m a b p a1 b1 p1 a2 b2 p2 : steps m a b p a1 b1 p1 -> steps m a1 b1 p1 a2 b2 p2 -> steps m a b p a2 b2 p2.
Proof.
  intros H1 H2 k R. destruct (H1 k R) as (k1 & R1 & ->). destruct (H2 k1 R1) as (k2 & R2 & ->). eauto.
Qed.
Lemma steps_blank m pre rest p : steps m pre (32 :: rest) p (pre ++ [32]) rest p.
Proof. intros k R. apply L_blank; auto. Qed.
Lemma steps_comma m pre rest p : steps m pre (44 :: rest) p (pre ++ [44]) rest p.
Proof. intros k R. apply L_blank; auto. Qed.
Lemma steps_sep m pre c rest p : In c [47; 58; 43; 45] -> steps m pre (c :: rest) p (pre ++ [c]) rest (w_prev p c).
Proof. intros C k R. apply L_sep; auto. Qed.
Lemma steps_num m pre cs n rest p p' : numeral 10 cs n -> n <= int_max -> not_digit rest ->
  (forall c0, 48 <= c0 <= 57 -> number m p n (match rest with [] => c0 | c :: _ => schar c end) (at_end rest) = Ok p') ->
  steps m pre (cs ++ rest) p (pre ++ cs) rest p'.
Proof.
  intros N V ND H k R. destruct (numeral_digits _ _ N) as (ds & D & NE & E). subst n. apply (L_num m k pre cs ds); auto.
  unfold next. destruct cs as [|c cs]; [congruence|]. cbn [hd]. apply H. inversion D as [|? ? ? ? C]; subst. apply is_digit_10 in C. lia.
Qed.
Lemma steps_word m pre w rest p p' a : letters w /\ w <> [] /\ lookup m w (rev wordTable) = Ok (Some a) -> not_letter rest ->
  word_action p a = Ok p' -> steps m pre (w ++ rest) p (pre ++ w) rest p'.
Proof. intros (W & NE & LK) NL A k R. apply (L_word m k pre w rest p p' a); auto. Qed.
Lemma parse_steps m off now s pre p r : s <> [] -> small s -> plain s -> steps m [] s p_init pre [] p -> finish m off now p = r ->
  parse m off now s = r.
Proof.
  intros NE S P H F. destruct (H (List.length s)) as (k' & R' & E).
  { split; [lia|]. change (zlen (@nil Z)) with 0. exact S. }
  rewrite L_end in E. now apply (parse_plain m off now s p).
Qed.

Lemma number_day m p n c e : 0 <= n <= 69 -> p_prev p = 0 -> p_hour p = -1 -> p_minute p = -1 -> p_day p = -1 -> c = 32 ->
  number m p n c e = Ok (w_day p n).
Proof.
  intros N P H M D C. unfold number. rewrite P, H, M, D. subst c. destruct (Z.leb_spec 70 n); [lia|].
  cbn -[Z.leb Z.ltb Z.eqb]. destruct e; cbn; now rewrite to_byte_id by lia.
Qed.
Lemma number_year m p n c e : 70 <= n -> (p_prev p = 43 \/ p_prev p = 45 -> False) -> p_year p = int_min -> c = 32 \/ e = true ->
  number m p n c e = Ok (w_year p n).
Proof.
  intros N P Y C. unfold number. rewrite Y, Z.eqb_refl, andb_false_r. destruct (Z.leb_spec 70 n); [|lia]. cbn [negb].
  replace ((c <=? 32) || (c =? 44) || (c =? 47) || e) with true; [reflexivity|]. destruct C as [-> | ->]; [reflexivity|now rewrite orb_true_r].
Qed.
Lemma number_hour m p n e : 0 <= n <= 69 -> p_prev p = 0 -> p_hour p = -1 -> number m p n 58 e = Ok (w_hour p n).
Proof.
  intros N P H. unfold number. rewrite P, H. destruct (Z.leb_spec 70 n); [lia|]. cbn. now rewrite to_byte_id by lia.
Qed.
Lemma number_minute m p n e : 0 <= n <= 69 -> p_prev p = 58 -> 0 <= p_hour p -> p_minute p = -1 -> number m p n 58 e = Ok (w_minute p n).
Proof.
  intros N P H M. unfold number. rewrite P, M. destruct (Z.leb_spec 70 n); [lia|]. 
  destruct (Z.ltb_spec (p_hour p) 0); [lia|]. cbn. now rewrite to_byte_id by lia.
Qed.
Lemma number_second m p n c e : 0 <= n <= 69 -> p_prev p = 58 -> 0 <= p_hour p -> 0 <= p_minute p -> p_second p = -1 -> c = 32 \/ (e = true /\ 48 <= c <= 57) ->
  number m p n c e = Ok (w_second p n).
Proof.
  intros N P H M S C. unfold number. rewrite P, S. destruct (Z.leb_spec 70 n); [lia|]. cbn -[Z.leb Z.ltb Z.eqb].
  destruct (Z.eqb_spec c 58); [lia|]. destruct (Z.eqb_spec c 47); [lia|].
  replace (negb e && negb (c =? 44) && (32 <? c) && negb (c =? 45)) with false by (destruct C as [-> |[-> _]]; [destruct e; reflexivity|reflexivity]).
  destruct (Z.leb_spec 0 (p_hour p)); [|lia]. destruct (Z.ltb_spec (p_minute p) 0); [lia|]. destruct (Z.leb_spec 0 (p_minute p)); [|lia].
  cbn. now rewrite to_byte_id by lia.
Qed.
Lemma action_month p k : 0 <= k <= 11 -> p_month p = -1 -> word_action p (k + 2) = Ok (w_month p k).
Proof.
  intros K M. unfold word_action. rewrite M. destruct (Z.eqb_spec (k + 2) 0); [lia|]. destruct (Z.eqb_spec (k + 2) 1); [lia|].
  destruct (Z.eqb_spec (k + 2) 14); [lia|]. destruct (Z.leb_spec (k + 2) 13); [|lia]. replace (k + 2 - 2) with k by lia.
  rewrite to_byte_id by lia. reflexivity.
Qed.

Lemma steps_clock m pre ht it st rest p f : proper f -> numeral 10 ht (f_hour f) -> numeral 10 it (f_minute f) -> numeral 10 st (f_second f) ->
  p_prev p = 0 -> p_hour p = -1 -> p_minute p = -1 -> p_second p = -1 -> (rest = [] \/ exists r, rest = 32 :: r) ->
  steps m pre (ht ++ 58 :: it ++ 58 :: st ++ rest) p ((((pre ++ ht) ++ [58]) ++ it) ++ [58] ++ st) rest
    (w_second (w_minute (w_hour p (f_hour f)) (f_minute f)) (f_second f)).
Proof.
  intros (_ & _ & H & I & S) HT IT ST P PH PM PS R. unfold int_max in *.
  eapply steps_trans; [apply (steps_num m pre ht (f_hour f)) with (p' := w_hour p (f_hour f)); [exact HT|unfold int_max; lia|cbn; lia|]|].
  { intros c0 C0. apply number_hour; auto; lia. }
  eapply steps_trans; [apply steps_sep; cbn; auto|].
  eapply steps_trans; [apply (steps_num m _ it (f_minute f)) with (p' := w_minute (w_hour p (f_hour f)) (f_minute f)); [exact IT|unfold int_max; lia|cbn; lia|]|].
  { intros c0 C0. etransitivity; [apply number_minute; cbn; auto; lia|reflexivity]. }
  eapply steps_trans; [apply steps_sep; cbn; auto|]. rewrite app_assoc.
  apply (steps_num m _ st (f_second f)); [exact ST|unfold int_max; lia| |].
  { destruct R as [-> |[r ->]]; cbn; [exact Logic.I|lia]. }
  intros c0 C0. destruct R as [-> |[r ->]]; (etransitivity; [apply number_second; cbn; auto; lia|reflexivity]).
Qed.

(** day month year *)
Definition with_date (f : fields) : pstate :=
  {| p_year := f_year f + 1900; p_month := f_month f; p_day := f_day f; p_hour := -1; p_minute := -1; p_second := -1; p_zone := -1; p_prev := 0 |}.
Lemma month_length_bound y k : month_length y k <= 31.
Proof. unfold month_length. destruct (_ =? 1); [destruct (leap y); lia|]. destruct (_ || _); lia. Qed.
Lemma steps_date m pre dt mt yt rest f : common f -> small mt -> numeral 10 dt (f_day f) -> month_word (f_month f) mt -> numeral 10 yt (f_year f + 1900) ->
  steps m pre (dt ++ 32 :: mt ++ 32 :: yt ++ 32 :: rest) p_init (((pre ++ dt) ++ [32]) ++ mt ++ [32] ++ yt ++ [32]) rest (with_date f).
Proof.
  intros ((M & D & _) & Y) SM DT MT YT. pose proof (month_length_bound (f_year f + 1900) (f_month f)).
  eapply steps_trans; [apply (steps_num m pre dt (f_day f)) with (p' := w_day p_init (f_day f)); [exact DT|unfold int_max; lia|cbn; lia|]|].
  { intros c0 C0. apply number_day; cbn; auto; lia. }
  eapply steps_trans; [apply steps_blank|].
  eapply steps_trans; [apply (steps_word m _ mt) with (a := f_month f + 2) (p' := w_month (w_day p_init (f_day f)) (f_month f)); [now apply month_lookup|reflexivity|]|].
  { apply action_month; [exact M|reflexivity]. }
  eapply steps_trans; [apply steps_blank|].
  eapply steps_trans; [apply (steps_num m _ yt (f_year f + 1900)) with (p' := with_date f); [exact YT|unfold int_max; lia|cbn; lia|]|].
  { intros c0 C0. etransitivity; [apply number_year; cbn; auto; lia|reflexivity]. }
  rewrite !app_assoc. apply steps_blank.
Qed.
Lemma numeral_plain cs n : numeral 10 cs n -> plain cs.
Proof. intros H. apply numeral_digits in H as (ds & D & _). now apply digits_plain in D. Qed.
Lemma variant_plain name w : abbreviates name w -> lower_b name = true -> plain w.
Proof.
  intros (n & N & V) LB. apply letters_plain. apply lower_b_ok in LB.
  apply (variant_lower (firstn n name) w); [|exact V]. apply Forall_forall. intros c C. rewrite Forall_forall in LB. apply LB.
  rewrite <- (firstn_skipn n name). apply in_or_app. now left.
Qed.
Lemma plain_cons c s : c <> 40 -> plain s -> plain (c :: s).
Proof. intros C P [H|H]; [congruence|now apply P]. Qed.
Lemma plain_nil : plain [].
Proof. intros []. Qed.

Definition text_local (dt mt yt ht it st : str) : str := dt ++ T " " ++ mt ++ T " " ++ yt ++ T " " ++ ht ++ T ":" ++ it ++ T ":" ++ st.
Lemma month_plain k w : 0 <= k <= 11 -> small w -> month_word k w -> plain w.
Proof. intros K S H. apply letters_plain. now apply (month_lookup HW k). Qed.
Lemma parse_local m off now f dt mt yt ht it st : -86400 <= off <= 86400 -> sane_now now -> common f ->
  numeral 10 dt (f_day f) -> month_word (f_month f) mt -> numeral 10 yt (f_year f + 1900) ->
  numeral 10 ht (f_hour f) -> numeral 10 it (f_minute f) -> numeral 10 st (f_second f) ->
  small (text_local dt mt yt ht it st) ->
  parse m off now (text_local dt mt yt ht it st) = Ok (1000 * instant off f).
Proof.
  intros O N C DT MT YT HT IT ST SM. unfold text_local in *. set (s := dt ++ _) in *.
  assert (SMT : small mt).
  { unfold s in SM. change (T " ") with [32] in SM. rewrite (app_assoc dt) in SM. now apply small_part in SM. }
  assert (ES : s = dt ++ 32 :: mt ++ 32 :: yt ++ 32 :: ht ++ 58 :: it ++ 58 :: st ++ []) by (rewrite app_nil_r; reflexivity).
  assert (P : plain s).
  { rewrite ES. pose proof C as ((M & _) & _).
    repeat (apply plain_cons; [lia|] || apply plain_app || apply plain_nil);
    eauto using numeral_plain, month_plain, plain_nil. }
  eapply parse_steps with (p := filled f (-1) 0); [|exact SM|exact P| |].
  - unfold s. destruct (numeral_digits _ _ DT) as (? & _ & NE & _). destruct dt; [congruence|discriminate].
  - rewrite ES. eapply steps_trans; [apply steps_date; eassumption|].
    eapply steps_trans; [apply (steps_clock m _ ht it st [] (with_date f) f); auto; apply C|].
    intros k R. exists k. split; [exact R|reflexivity].
  - rewrite finish_ok by (assumption || lia). reflexivity.
Qed.

(** *** Zones *)
Lemma greenwich_plain w : small w -> greenwich w -> plain w.
Proof. intros S H. apply letters_plain. now apply (greenwich_lookup HW). Qed.
Lemma day_plain w : small w -> day_word w -> plain w.
Proof. intros S H. apply letters_plain. now apply (day_lookup HW). Qed.
Ltac plain_text := repeat (apply plain_cons; [lia|] || apply plain_app || apply plain_nil);
    eauto using numeral_plain, month_plain, day_plain, greenwich_plain, plain_nil.
Lemma numeral_nil s v : numeral 10 s v -> s <> [].
Proof. now intros []. Qed.
Lemma small_in (a b c s : str) : s = a ++ b ++ c -> small s -> small b.
Proof. intros ->. apply small_part. Qed.
Lemma action_zone p : word_action p 10000 = Ok (w_zone p 0).
Proof. reflexivity. Qed.
Lemma date_steps m dt mt yt ht it st rest f : common f -> small mt -> numeral 10 dt (f_day f) -> month_word (f_month f) mt -> numeral 10 yt (f_year f + 1900) ->
  numeral 10 ht (f_hour f) -> numeral 10 it (f_minute f) -> numeral 10 st (f_second f) ->
  (rest = [] \/ exists r, rest = 32 :: r) ->
  exists pre, steps m [] (dt ++ 32 :: mt ++ 32 :: yt ++ 32 :: ht ++ 58 :: it ++ 58 :: st ++ rest) p_init pre rest (filled f (-1) 0).
Proof.
  intros C SMT DT MT YT HT IT ST R. eexists. eapply steps_trans; [apply steps_date; eassumption|].
  eapply steps_trans; [apply (steps_clock m _ ht it st rest (with_date f) f); auto; apply C|].
  intros k Rk. exists k. split; [exact Rk|reflexivity].
Qed.
Lemma parse_gmt m off now f dt mt yt ht it st zt : -86400 <= off <= 86400 -> sane_now now -> common f ->
  numeral 10 dt (f_day f) -> month_word (f_month f) mt -> numeral 10 yt (f_year f + 1900) ->
  numeral 10 ht (f_hour f) -> numeral 10 it (f_minute f) -> numeral 10 st (f_second f) -> greenwich zt ->
  small (text_local dt mt yt ht it st ++ T " " ++ zt) ->
  parse m off now (text_local dt mt yt ht it st ++ T " " ++ zt) = Ok (1000 * instant 0 f).
Proof.
  intros O N C DT MT YT HT IT ST ZT SM. unfold text_local in *. set (s := (dt ++ _) ++ _) in *.
  assert (ES : s = dt ++ 32 :: mt ++ 32 :: yt ++ 32 :: ht ++ 58 :: it ++ 58 :: st ++ 32 :: zt ++ []).
  { unfold s. rewrite <- !app_assoc, app_nil_r. reflexivity. }
  assert (SMT : small mt) by (apply (small_in (dt ++ [32]) mt (32 :: yt ++ 32 :: ht ++ 58 :: it ++ 58 :: st ++ 32 :: zt ++ []) s); [rewrite <- app_assoc; exact ES|exact SM]).
  assert (SZ : small zt).
  { apply (small_in (dt ++ 32 :: mt ++ 32 :: yt ++ 32 :: ht ++ 58 :: it ++ 58 :: st ++ [32]) zt [] s); [|exact SM].
    rewrite ES. repeat (rewrite <- app_assoc; cbn [app]). reflexivity. }
  pose proof C as ((M & _) & _).
  assert (P : plain s) by (rewrite ES; plain_text).
  destruct (date_steps m dt mt yt ht it st (32 :: zt ++ []) f) as (pre & SP); eauto.
  eapply parse_steps with (p := filled f 0 0); [|exact SM|exact P| |].
  - rewrite ES. apply numeral_nil in DT. destruct dt; [congruence|discriminate].
  - rewrite ES. eapply steps_trans; [exact SP|]. eapply steps_trans; [apply steps_blank|].
    apply (steps_word m _ zt [] _ _ 10000); [now apply greenwich_lookup|exact Logic.I|reflexivity].
  - rewrite finish_ok by (assumption || lia). cbn [Z.eqb]. f_equal. lia.
Qed.

Lemma minutes_bound n : 0 <= n <= 9999 -> 0 <= zone_minutes n <= 6100.
Proof. intros H. unfold zone_minutes. destruct (Z.ltb_spec n 24); [lia|]. dm. Qed.
Lemma minutes_ne1 n : 0 <= n <= 9999 -> zone_minutes n <> 1.
Proof. intros H. unfold zone_minutes. destruct (Z.ltb_spec n 24); [lia|]. pose proof (Z.div_mod n 100). pose proof (Z.mod_pos_bound n 100). lia. Qed.
Lemma number_zone m p n c e q : 0 <= n <= 9999 -> p_year p <> int_min -> p_zone p = 0 -> p_prev p = q -> q = 43 \/ q = 45 ->
  number m p n c e = Ok (w_zone p (if q =? 43 then - zone_minutes n else zone_minutes n)).
Proof.
  intros N Y Z0 P Q. unfold number. rewrite P, Z0. pose proof (minutes_bound n N) as B.
  replace (((q =? 43) || (q =? 45)) && negb (p_year p =? int_min)) with true by (destruct Q as [-> | ->]; cbn; lia).
  assert (E : (if n <? 24 then smul m 32 n 60 else let* h := smul m 32 (Z.quot n 100) 60 in sadd m 32 (Z.rem n 100) h) = Ok (zone_minutes n)).
  { revert B. unfold zone_minutes, smul, sadd. destruct (Z.ltb_spec n 24); intros B; [rewrite sres32 by lia; f_equal; lia|].
    rewrite Z.quot_div_nonneg, Z.rem_mod_nonneg by lia. pose proof (Z.mod_pos_bound n 100 ltac:(lia)).
    rewrite sres32 by lia. cbn [bind]. rewrite sres32 by lia. f_equal. lia. }
  rewrite E. cbn [bind negb]. destruct (Z.eqb_spec q 43).
  - unfold sneg. rewrite sres32 by lia. reflexivity.
  - reflexivity.
Qed.
Lemma parse_offset m off now f dt mt yt ht it st zt q nt n : -86400 <= off <= 86400 -> sane_now now -> common f ->
  numeral 10 dt (f_day f) -> month_word (f_month f) mt -> numeral 10 yt (f_year f + 1900) ->
  numeral 10 ht (f_hour f) -> numeral 10 it (f_minute f) -> numeral 10 st (f_second f) -> greenwich zt ->
  q = 43 \/ q = 45 -> numeral 10 nt n -> 0 <= n <= 9999 ->
  small (text_local dt mt yt ht it st ++ T " " ++ zt ++ [q] ++ nt) ->
  parse m off now (text_local dt mt yt ht it st ++ T " " ++ zt ++ [q] ++ nt)
  = Ok (1000 * (if q =? 43 then instant 0 f - 60 * zone_minutes n else instant 0 f + 60 * zone_minutes n)).
Proof.
  intros O N C DT MT YT HT IT ST ZT Q NT NB SM. unfold text_local in *. set (s := (dt ++ _) ++ _) in *.
  assert (ES : s = dt ++ 32 :: mt ++ 32 :: yt ++ 32 :: ht ++ 58 :: it ++ 58 :: st ++ 32 :: zt ++ q :: nt ++ []).
  { unfold s. rewrite <- !app_assoc, app_nil_r. reflexivity. }
  assert (SMT : small mt) by (apply (small_in (dt ++ [32]) mt (32 :: yt ++ 32 :: ht ++ 58 :: it ++ 58 :: st ++ 32 :: zt ++ q :: nt ++ []) s); [rewrite <- app_assoc; exact ES|exact SM]).
  assert (SZ : small zt).
  { apply (small_in (dt ++ 32 :: mt ++ 32 :: yt ++ 32 :: ht ++ 58 :: it ++ 58 :: st ++ [32]) zt (q :: nt ++ []) s); [|exact SM].
    rewrite ES. repeat (rewrite <- app_assoc; cbn [app]). reflexivity. }
  pose proof C as ((M & _) & Y).
  assert (P : plain s) by (rewrite ES; plain_text).
  destruct (date_steps m dt mt yt ht it st (32 :: zt ++ q :: nt ++ []) f) as (pre & SP); eauto.
  pose proof (minutes_bound n NB) as MB.
  eapply parse_steps with (p := filled f (if q =? 43 then - zone_minutes n else zone_minutes n) 0); [|exact SM|exact P| |].
  - rewrite ES. apply numeral_nil in DT. destruct dt; [congruence|discriminate].
  - rewrite ES. eapply steps_trans; [exact SP|]. eapply steps_trans; [apply steps_blank|].
    eapply steps_trans; [apply (steps_word m _ zt _ _ (filled f 0 0) 10000); [now apply greenwich_lookup| |reflexivity]|].
    { destruct Q as [-> | ->]; reflexivity. }
    eapply steps_trans; [apply steps_sep; destruct Q as [-> | ->]; cbn; auto|].
    apply (steps_num m _ nt n); [exact NT|unfold int_max; lia|exact Logic.I|].
    intros c0 C0. etransitivity; [apply (number_zone m _ n _ _ q); [exact NB|cbn; unfold int_min; lia|reflexivity|reflexivity|exact Q]|reflexivity].
  - rewrite finish_ok; [|assumption|assumption|assumption|destruct (q =? 43); lia].
    assert (Z1 : (if q =? 43 then - zone_minutes n else zone_minutes n) <> -1).
    { pose proof (minutes_ne1 n NB). destruct (q =? 43); lia. }
    destruct (Z.eqb_spec (if q =? 43 then - zone_minutes n else zone_minutes n) (-1)); [contradiction|].
    destruct (q =? 43); f_equal; lia.
Qed.

(** *** The format of toString *)
Definition text_asctime (wt mt dt ht it st zt yt : str) : str :=
  wt ++ T " " ++ mt ++ T " " ++ dt ++ T " " ++ ht ++ T ":" ++ it ++ T ":" ++ st ++ zt ++ T " " ++ yt.
Lemma action_day p : p_prev p = 0 -> word_action p 0 = Ok p.
Proof. intros P. unfold word_action. cbn. unfold w_prev. rewrite <- P. now destruct p. Qed.
Lemma asctime_steps m wt mt dt ht it st rest f : proper f -> small wt -> small mt -> day_word wt -> month_word (f_month f) mt -> numeral 10 dt (f_day f) ->
  numeral 10 ht (f_hour f) -> numeral 10 it (f_minute f) -> numeral 10 st (f_second f) ->
  (rest = [] \/ exists r, rest = 32 :: r) ->
  exists pre, steps m [] (wt ++ 32 :: mt ++ 32 :: dt ++ 32 :: ht ++ 58 :: it ++ 58 :: st ++ rest) p_init pre rest
    (w_second (w_minute (w_hour (w_day (w_month p_init (f_month f)) (f_day f)) (f_hour f)) (f_minute f)) (f_second f)).
Proof.
  intros C SW SMT WT MT DT HT IT ST R. pose proof C as (M & D & _). pose proof (month_length_bound (f_year f + 1900) (f_month f)).
  eexists.
  eapply steps_trans; [apply (steps_word m _ wt) with (a := 0) (p' := p_init); [now apply day_lookup|reflexivity|reflexivity]|].
  eapply steps_trans; [apply steps_blank|].
  eapply steps_trans; [apply (steps_word m _ mt) with (a := f_month f + 2) (p' := w_month p_init (f_month f)); [now apply month_lookup|reflexivity|now apply action_month]|].
  eapply steps_trans; [apply steps_blank|].
  eapply steps_trans; [apply (steps_num m _ dt (f_day f)) with (p' := w_day (w_month p_init (f_month f)) (f_day f)); [exact DT|unfold int_max; lia|cbn; lia|]|].
  { intros c0 C0. apply number_day; cbn; auto; lia. }
  eapply steps_trans; [apply steps_blank|].
  now apply (steps_clock m _ ht it st rest _ f).
Qed.
Lemma parse_asctime m off now f wt mt dt ht it st yt : -86400 <= off <= 86400 -> sane_now now -> common f ->
  day_word wt -> month_word (f_month f) mt -> numeral 10 dt (f_day f) ->
  numeral 10 ht (f_hour f) -> numeral 10 it (f_minute f) -> numeral 10 st (f_second f) -> numeral 10 yt (f_year f + 1900) ->
  small (text_asctime wt mt dt ht it st [] yt) ->
  parse m off now (text_asctime wt mt dt ht it st [] yt) = Ok (1000 * instant off f).
Proof.
  intros O N C WT MT DT HT IT ST YT SM. unfold text_asctime in *. set (s := wt ++ _) in *.
  assert (ES : s = wt ++ 32 :: mt ++ 32 :: dt ++ 32 :: ht ++ 58 :: it ++ 58 :: st ++ 32 :: yt ++ []) by (unfold s; rewrite app_nil_r; reflexivity).
  assert (SW : small wt) by (apply (small_in [] wt (32 :: mt ++ 32 :: dt ++ 32 :: ht ++ 58 :: it ++ 58 :: st ++ 32 :: yt ++ []) s); [exact ES|exact SM]).
  assert (SMT : small mt) by (apply (small_in (wt ++ [32]) mt (32 :: dt ++ 32 :: ht ++ 58 :: it ++ 58 :: st ++ 32 :: yt ++ []) s); [rewrite <- app_assoc; exact ES|exact SM]).
  pose proof C as ((M & _) & Y).
  assert (P : plain s) by (rewrite ES; plain_text).
  destruct (asctime_steps m wt mt dt ht it st (32 :: yt ++ []) f) as (pre & SP); eauto; [apply C|].
  eapply parse_steps with (p := filled f (-1) 0); [|exact SM|exact P| |].
  - rewrite ES. destruct (day_lookup m wt SW WT) as (_ & NE & _). destruct wt; [congruence|discriminate].
  - rewrite ES. eapply steps_trans; [exact SP|]. eapply steps_trans; [apply steps_blank|].
    apply (steps_num m _ yt (f_year f + 1900)); [exact YT|unfold int_max; lia|exact Logic.I|].
    intros c0 C0. etransitivity; [apply number_year; cbn; auto; lia|reflexivity].
  - rewrite finish_ok by (assumption || lia). reflexivity.
Qed.
Lemma parse_toString m off now f wt mt dt ht it st zt yt : -86400 <= off <= 86400 -> sane_now now -> common f ->
  day_word wt -> month_word (f_month f) mt -> numeral 10 dt (f_day f) ->
  numeral 10 ht (f_hour f) -> numeral 10 it (f_minute f) -> numeral 10 st (f_second f) -> greenwich zt -> numeral 10 yt (f_year f + 1900) ->
  small (text_asctime wt mt dt ht it st (T " " ++ zt) yt) ->
  parse m off now (text_asctime wt mt dt ht it st (T " " ++ zt) yt) = Ok (1000 * instant 0 f).
Proof.
  intros O N C WT MT DT HT IT ST ZT YT SM. unfold text_asctime in *. set (s := wt ++ _) in *.
  assert (ES : s = wt ++ 32 :: mt ++ 32 :: dt ++ 32 :: ht ++ 58 :: it ++ 58 :: st ++ 32 :: zt ++ 32 :: yt ++ []).
  { unfold s. rewrite <- !app_assoc, app_nil_r. reflexivity. }
  assert (SW : small wt) by (apply (small_in [] wt (32 :: mt ++ 32 :: dt ++ 32 :: ht ++ 58 :: it ++ 58 :: st ++ 32 :: zt ++ 32 :: yt ++ []) s); [exact ES|exact SM]).
  assert (SMT : small mt) by (apply (small_in (wt ++ [32]) mt (32 :: dt ++ 32 :: ht ++ 58 :: it ++ 58 :: st ++ 32 :: zt ++ 32 :: yt ++ []) s); [rewrite <- app_assoc; exact ES|exact SM]).
  assert (SZ : small zt).
  { apply (small_in (wt ++ 32 :: mt ++ 32 :: dt ++ 32 :: ht ++ 58 :: it ++ 58 :: st ++ [32]) zt (32 :: yt ++ []) s); [|exact SM].
    rewrite ES. repeat (rewrite <- app_assoc; cbn [app]). reflexivity. }
  pose proof C as ((M & _) & Y).
  assert (P : plain s) by (rewrite ES; plain_text).
  destruct (asctime_steps m wt mt dt ht it st (32 :: zt ++ 32 :: yt ++ []) f) as (pre & SP); eauto; [apply C|].
  eapply parse_steps with (p := filled f 0 0); [|exact SM|exact P| |].
  - rewrite ES. destruct (day_lookup m wt SW WT) as (_ & NE & _). destruct wt; [congruence|discriminate].
  - rewrite ES. eapply steps_trans; [exact SP|]. eapply steps_trans; [apply steps_blank|].
    eapply steps_trans; [eapply (steps_word m _ zt _ _ _ 10000); [now apply greenwich_lookup|reflexivity|apply action_zone]|].
    eapply steps_trans; [apply steps_blank|].
    apply (steps_num m _ yt (f_year f + 1900)); [exact YT|unfold int_max; lia|exact Logic.I|].
    intros c0 C0. etransitivity; [apply number_year; cbn; auto; lia|reflexivity].
  - rewrite finish_ok by (assumption || lia). cbn [Z.eqb]. f_equal. lia.
Qed.

(** *** month/day/year *)
Definition text_slash (nt dt yt ht it st : str) : str := nt ++ T "/" ++ dt ++ T "/" ++ yt ++ T " " ++ ht ++ T ":" ++ it ++ T ":" ++ st.
Lemma parse_slash m off now f nt dt yt ht it st : -86400 <= off <= 86400 -> sane_now now -> common f ->
  numeral 10 nt (f_month f + 1) -> numeral 10 dt (f_day f) -> numeral 10 yt (f_year f + 1900) ->
  numeral 10 ht (f_hour f) -> numeral 10 it (f_minute f) -> numeral 10 st (f_second f) ->
  small (text_slash nt dt yt ht it st) ->
  parse m off now (text_slash nt dt yt ht it st) = Ok (1000 * instant off f).
Proof.
  intros O N C NT DT YT HT IT ST SM. unfold text_slash in *. set (s := nt ++ _) in *.
  assert (ES : s = nt ++ 47 :: dt ++ 47 :: yt ++ 32 :: ht ++ 58 :: it ++ 58 :: st ++ []) by (rewrite app_nil_r; reflexivity).
  assert (P : plain s) by (rewrite ES; plain_text).
  pose proof C as ((M & D & _) & Y). pose proof (month_length_bound (f_year f + 1900) (f_month f)).
  eapply parse_steps with (p := filled f (-1) 0); [|exact SM|exact P| |].
  - unfold s. apply numeral_nil in NT. destruct nt; [congruence|discriminate].
  - rewrite ES.
    eapply steps_trans; [apply (steps_num m _ nt (f_month f + 1)) with (p' := w_month p_init (f_month f)); [exact NT|unfold int_max; lia|cbn; lia|]|].
    { intros c0 C0. unfold number. destruct (Z.leb_spec 70 (f_month f + 1)); [lia|]. cbn -[Z.sub]. unfold ssub. rewrite sres32 by lia.
      cbn [bind]. replace (f_month f + 1 - 1) with (f_month f) by lia. now rewrite to_byte_id by lia. }
    eapply steps_trans; [apply steps_sep; cbn; auto|].
    eapply steps_trans; [apply (steps_num m _ dt (f_day f)) with (p' := w_day (w_month p_init (f_month f)) (f_day f)); [exact DT|unfold int_max; lia|cbn; lia|]|].
    { intros c0 C0. unfold number. destruct (Z.leb_spec 70 (f_day f)); [lia|]. cbn -[Z.ltb]. destruct (Z.ltb_spec (f_month f) 0); [lia|].
      cbn. now rewrite to_byte_id by lia. }
    eapply steps_trans; [apply steps_sep; cbn; auto|].
    eapply steps_trans; [apply (steps_num m _ yt (f_year f + 1900)) with (p' := with_date f); [exact YT|unfold int_max; lia|cbn; lia|]|].
    { intros c0 C0. etransitivity; [apply number_year; cbn; auto; lia|reflexivity]. }
    eapply steps_trans; [apply steps_blank|].
    eapply steps_trans; [apply (steps_clock m _ ht it st [] (with_date f) f); auto; apply C|].
    intros k Rk. exists k. split; [exact Rk|reflexivity].
  - rewrite finish_ok by (assumption || lia). reflexivity.
Qed.

(** *** am and pm *)
Lemma half_day_lookup m pm w : small w -> half_day_word pm w -> letters w /\ w <> [] /\ lookup m w (rev wordTable) = Ok (Some (if pm then 1 else 14)).
Proof.
  unfold half_day_word. intros SW G. destruct pm;
  (eapply word_of in G; [|vm_compute; reflexivity| | |exact SW];
   [destruct G as (P & Q & R0); split; [exact P|]; split; [intros ->; discriminate Q|exact R0]|vm_compute; reflexivity|vm_compute; reflexivity]).
Qed.
Lemma parse_half m off now f pm h dt mt yt ht it st zt : -86400 <= off <= 86400 -> sane_now now -> common f ->
  1 <= h <= 12 -> f_hour f = on_clock pm h ->
  numeral 10 dt (f_day f) -> month_word (f_month f) mt -> numeral 10 yt (f_year f + 1900) ->
  numeral 10 ht h -> numeral 10 it (f_minute f) -> numeral 10 st (f_second f) -> half_day_word pm zt ->
  small (text_local dt mt yt ht it st ++ T " " ++ zt) ->
  parse m off now (text_local dt mt yt ht it st ++ T " " ++ zt) = Ok (1000 * instant off f).
Proof.
  intros O N C H12 FH DT MT YT HT IT ST ZT SM. unfold text_local in *. set (s := (dt ++ _) ++ _) in *.
  assert (ES : s = dt ++ 32 :: mt ++ 32 :: yt ++ 32 :: ht ++ 58 :: it ++ 58 :: st ++ 32 :: zt ++ []).
  { unfold s. rewrite <- !app_assoc, app_nil_r. reflexivity. }
  assert (SMT : small mt) by (apply (small_in (dt ++ [32]) mt (32 :: yt ++ 32 :: ht ++ 58 :: it ++ 58 :: st ++ 32 :: zt ++ []) s); [rewrite <- app_assoc; exact ES|exact SM]).
  assert (SZ : small zt).
  { apply (small_in (dt ++ 32 :: mt ++ 32 :: yt ++ 32 :: ht ++ 58 :: it ++ 58 :: st ++ [32]) zt [] s); [|exact SM].
    rewrite ES. repeat (rewrite <- app_assoc; cbn [app]). reflexivity. }
  pose proof C as ((M & D & FH' & FI & FS) & Y). destruct (half_day_lookup m pm zt SZ ZT) as (ZL & ZN & ZK).
  assert (P : plain s) by (rewrite ES; plain_text; now apply letters_plain).
  set (g := {| f_year := f_year f; f_month := f_month f; f_day := f_day f; f_hour := h; f_minute := f_minute f; f_second := f_second f |}).
  assert (CG : common g) by (unfold common, proper, g; cbn; repeat split; lia).
  destruct (date_steps m dt mt yt ht it st (32 :: zt ++ []) g) as (pre & SP); eauto.
  eapply parse_steps with (p := filled f (-1) 0); [|exact SM|exact P| |].
  - rewrite ES. apply numeral_nil in DT. destruct dt; [congruence|discriminate].
  - rewrite ES. eapply steps_trans; [exact SP|]. eapply steps_trans; [apply steps_blank|].
    apply (steps_word m _ zt [] _ _ (if pm then 1 else 14)); [auto|exact Logic.I|].
    unfold filled. rewrite FH. unfold on_clock, word_action, g. clear - H12. destruct pm; cbn -[Z.modulo Z.ltb Z.eqb];
      (destruct (Z.ltb_spec 12 h); [lia|]; destruct (Z.ltb_spec h 1); [lia|]; cbn [orb]).
    + change (14 =? 0) with false. cbn -[Z.modulo Z.ltb Z.eqb]. change (1 =? 0) with false. change (1 =? 1) with true. cbn iota.
      destruct (Z.ltb_spec h 12).
      * unfold w_hour. cbn -[Z.modulo]. rewrite Z.mod_small by lia. reflexivity.
      * assert (h = 12) as -> by lia. reflexivity.
    + change (14 =? 0) with false. change (14 =? 1) with false. change (14 =? 14) with true. cbn iota.
      destruct (Z.eqb_spec h 12) as [-> |].
      * reflexivity.
      * unfold w_prev. cbn -[Z.modulo]. rewrite Z.mod_small, Z.add_0_r by lia. reflexivity.
  - rewrite finish_ok by (assumption || lia). reflexivity.
Qed.

(** *** Comments *)
Lemma znth_skip (a : str) b i : zlen a <= i -> znth (a ++ b) i = znth b (i - zlen a).
Proof.
  intros H. pose proof (zlen_nonneg a). unfold znth, zlen in *. destruct (Z.ltb_spec i 0); [lia|]. destruct (Z.ltb_spec (i - Z.of_nat (List.length a)) 0); [lia|].
  rewrite nth_error_app2 by lia. f_equal. lia.
Qed.
Lemma znth_keep (a : str) b i : 0 <= i < zlen a -> znth (a ++ b) i = znth a i.
Proof. intros H. unfold znth, zlen in *. destruct (Z.ltb_spec i 0); [lia|]. apply nth_error_app1. lia. Qed.
Lemma znth_In' (a : str) i c : znth a i = Some c -> In c a.
Proof. unfold znth. destruct (i <? 0); [discriminate|]. apply nth_error_In. Qed.
Lemma indexOf_first a c b : c <> 0 -> ~ In c a -> indexOf_char (a ++ c :: b) c = zlen a.
Proof.
  intros C N. pose proof (zlen_nonneg a). pose proof (zlen_nonneg b). destruct (indexOf_char_ok (a ++ c :: b) c C) as [(B & O & F)|[_ F]].
  - set (i := indexOf_char (a ++ c :: b) c) in *. apply occurs_char in O. destruct (Z_lt_le_dec i (zlen a)).
    { rewrite znth_keep in O by lia. apply znth_In' in O. contradiction. }
    destruct (Z_le_dec i (zlen a)); [lia|]. exfalso. apply (F (zlen a)); [lia|]. apply occurs_char, znth_mid.
  - exfalso. apply (F (zlen a)); [rewrite zlen_app, zlen_cons; lia|]. apply occurs_char, znth_mid.
Qed.
Lemma removeBracket_mono k : forall s t, removeBracket k s = Ok t -> removeBracket (S k) s = Ok t.
Proof.
  induction k as [|k IH]; intros s t H; cbn [removeBracket] in H |- *; destruct (_ && _); try assumption; [discriminate|].
  destruct (subString s 0 _); try discriminate. cbn [bind] in *. destruct (subString1 s _); try discriminate. cbn [bind] in *.
  now apply IH.
Qed.
Lemma removeBracket_more k s t : (k <= List.length s)%nat -> removeBracket k s = Ok t -> removeBracket (List.length s) s = Ok t.
Proof.
  intros H. remember (List.length s) as n eqn:E. clear E. induction H as [|n H IH]; [auto|]. intros R. apply removeBracket_mono. auto.
Qed.
Lemma removeBracket_step k a c b : ~ In 40 a -> ~ In 41 a -> ~ In 41 c ->
  removeBracket (S k) (a ++ 40 :: c ++ 41 :: b) = removeBracket k (a ++ b).
Proof.
  intros A1 A2 C. cbn [removeBracket]. set (s := a ++ 40 :: c ++ 41 :: b).
  assert (E1 : indexOf_char s 40 = zlen a) by (apply indexOf_first; [lia|exact A1]).
  assert (ES : s = (a ++ 40 :: c) ++ 41 :: b) by (unfold s; rewrite <- app_assoc; reflexivity).
  assert (E2 : indexOf_char s 41 = zlen (a ++ 40 :: c)).
  { rewrite ES. apply indexOf_first; [lia|]. intros H. apply in_app_or in H as [H|[H|H]]; [auto|lia|auto]. }
  rewrite E1, E2. rewrite zlen_app, zlen_cons. pose proof (zlen_nonneg a). pose proof (zlen_nonneg b). pose proof (zlen_nonneg c).
  replace (negb (zlen a =? -1) && (zlen a <? zlen a + (zlen c + 1))) with true by lia.
  assert (LS : zlen s = zlen a + (zlen c + 1) + (zlen b + 1)) by (rewrite ES, !zlen_app, !zlen_cons; lia).
  destruct (subString_in s 0 (zlen a)) as (u & -> & U); [lia|lia|]. cbn [bind]. unfold subString1.
  destruct (subString_in s (zlen a + (zlen c + 1) + 1) (zlen s)) as (v & -> & V); [lia|lia|]. cbn [bind].
  rewrite (is_slice_fun s 0 (zlen a) u a U), (is_slice_fun s _ (zlen s) v b V); [reflexivity| |].
  - exists (a ++ 40 :: c ++ [41]), []. rewrite app_nil_r. split; [unfold s; rewrite <- app_assoc; cbn [app]; rewrite <- app_assoc; reflexivity|].
    rewrite !zlen_app, zlen_cons, zlen_app. change (zlen [41]) with 1. lia.
  - exists [], (40 :: c ++ 41 :: b). split; [reflexivity|]. change (zlen (@nil Z)) with 0. lia.
Qed.
Lemma parse_comment m off now a c b : ~ In 40 a -> ~ In 41 a -> ~ In 41 c ->
  parse m off now (a ++ T "(" ++ c ++ T ")" ++ b) = parse m off now (a ++ b).
Proof.
  intros A1 A2 C. change (a ++ T "(" ++ c ++ T ")" ++ b) with (a ++ 40 :: c ++ 41 :: b).
  destruct (removeBracket_ok (List.length (a ++ b)) (a ++ b) (le_n _)) as (t & RT & _).
  assert (R : removeBracket (List.length (a ++ 40 :: c ++ 41 :: b)) (a ++ 40 :: c ++ 41 :: b) = Ok t).
  { apply removeBracket_more with (k := S (List.length (a ++ b))).
    - rewrite !app_length. cbn [List.length]. rewrite app_length. cbn [List.length]. lia.
    - rewrite removeBracket_step by assumption. exact RT. }
  unfold parse. rewrite R, RT. cbn [bind].
  pose proof (zlen_nonneg a). pose proof (zlen_nonneg b). pose proof (zlen_nonneg c).
  destruct (Z.eqb_spec (zlen (a ++ 40 :: c ++ 41 :: b)) 0) as [Z0|_]; [rewrite zlen_app, zlen_cons in Z0; pose proof (zlen_nonneg (c ++ 41 :: b)); lia|].
  destruct (Z.eqb_spec (zlen (a ++ b)) 0) as [Z0|_]; [|reflexivity].
  rewrite zlen_app in Z0. assert (a = []) as -> by (destruct a; [reflexivity|rewrite zlen_cons in Z0; pose proof (zlen_nonneg a); lia]).
  assert (b = []) as -> by (destruct b; [reflexivity|rewrite zlen_cons in Z0; pose proof (zlen_nonneg b); change (zlen (@nil Z)) with 0 in Z0; lia]).
  cbn in RT. assert (t = []) as -> by congruence. reflexivity.
Qed.
