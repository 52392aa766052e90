(** The invariant of the block index is preserved by the writer. *)

From Coq Require Import ZArith List Bool Lia ZifyBool ZifyNat Znumtheory.
From Verif Require Import Base SubQueueModel BlockIndexModel BlockIndexSpec BlockIndexProofs.
Import ListNotations.
Open Scope Z_scope.

Section Inv.
Variable (lb : Z).
Hypothesis (HB : 1 <= lb <= 6).
Notation B := (2 ^ lb).
Notation structs := (structs lb).
Notation cons_ok := (cons_ok lb).
Notation looks_ok := (looks_ok lb).
Notation inv := (inv lb).

Lemma cons_mono s s' c :
  cons s' = cons s -> users s' = users s -> nb s <= nb s' ->
  (forall n, n < nb s -> gone s' n = gone s n /\ pubs s' n = pubs s n /\ names s' n = names s n) ->
  (nh s <= nh s')%nat ->
  (forall h, (h < nh s)%nat -> cnt (hdrs s h) <= cnt (hdrs s' h) /\ lo (hdrs s' h) = lo (hdrs s h) /\ cap (hdrs s' h) = cap (hdrs s h)) ->
  cons_ok s c -> cons_ok s' c.
Proof.
  intros E1 E2 L P Nh Hh C. unfold BlockIndexProofs.cons_ok in *. rewrite E1.
  assert (HH : forall i, held lb s c i -> held lb s' c i).
  { unfold held. rewrite E2. intros i (A1 & A2 & A3). destruct (P (i / B) ltac:(lia)) as (G & _). rewrite G. repeat split; auto; lia. }
  destruct (cons s c); auto.
  - destruct C as (C & R). split; auto. destruct C as (A1 & _). destruct (P (i / B) ltac:(lia)) as (_ & G & _). rewrite G. lia.
  - destruct C as (C & R & m & M & T). split; auto. split; [lia|]. exists m.
    destruct (Hh h R) as (K1 & K2 & K3). split; [lia|]. unfold pos. now rewrite K2, K3.
  - destruct C as (C & T). split; auto. destruct C as (A1 & _). destruct (P (i / B) ltac:(lia)) as (_ & _ & G). now rewrite G.
  - destruct C as (C & T). split; auto. destruct C as (A1 & _). destruct (P (i / B) ltac:(lia)) as (_ & _ & G). now rewrite G.
Qed.

(** Steps that only move the writer. *)
Lemma move s p : inv s -> prod_ok (at_p s p) -> inv (at_p s p).
Proof.
  intros (S & P & C & L) P'. split; [exact S|]. split; [exact P'|]. split; [|exact L].
  intros c. apply (cons_mono s); try reflexivity; try lia; auto. intros; cbn; lia.
Qed.
Lemma refuse_inv s : inv s -> prod_ok (at_p s PIdle) -> inv (refuse s).
Proof.
  intros (S & P & C & L) P'. split; [exact S|]. split; [exact P'|]. split.
  - intros c. apply (cons_mono s); try reflexivity; try lia; auto. intros; cbn; lia.
  - intros i v [E|I]; [discriminate|]. exact (L i v I).
Qed.

Lemma tail_next s m : structs s -> tail_is s m -> turn (cur s) 1 = pos (cur s) (m + 1).
Proof.
  intros S T. pose proof (cur_good _ _ S) as G. destruct G. pose proof (capp _ g_pow).
  rewrite turn_spec by auto. rewrite T. apply pos_shift. lia.
Qed.
Lemma tail_prev s m : structs s -> tail_is s m -> turn (cur s) (-1) = pos (cur s) (m - 1).
Proof.
  intros S T. pose proof (cur_good _ _ S) as G. destruct G. pose proof (capp _ g_pow).
  rewrite turn_spec by auto. rewrite T. apply pos_shift. lia.
Qed.

(** Looking at the slot after the tail. *)
Lemma slot_next s : structs s ->
  (cnt (cur s) = nb s + 1 /\ slot_at (cur s) (pos (cur s) (nb s)) = Some (names s (nb s)) /\ key (ents s (names s (nb s))) = uwrap 64 (B * nb s)) \/
  (cnt (cur s) = nb s /\ nb s < lo (cur s) + cap (cur s) /\ exists e, slot_at (cur s) (pos (cur s) (nb s)) = Some e /\ key (ents s e) = INVALID) \/
  (cnt (cur s) = nb s /\ lo (cur s) <= nb s - cap (cur s) /\ win (cur s) (nb s - cap (cur s)) /\
   slot_at (cur s) (pos (cur s) (nb s)) = Some (names s (nb s - cap (cur s))) /\
   key (ents s (names s (nb s - cap (cur s)))) = uwrap 64 (B * (nb s - cap (cur s)))).
Proof.
  intros S. pose proof (cur_good _ _ S) as G. destruct S, G. fold (curh s) in *. fold (cur s) in *. pose proof (capp _ g_pow).
  assert (D : cnt (cur s) = nb s + 1 \/ cnt (cur s) = nb s) by lia. destruct D as [D|D].
  - left. assert (W : win (cur s) (nb s)) by (unfold win; lia). auto.
  - right. destruct (Z.lt_ge_cases (nb s) (lo (cur s) + cap (cur s))) as [F|F].
    + left. split; [exact D|]. split; [exact F|]. apply s_fresh; lia.
    + right. assert (W : win (cur s) (nb s - cap (cur s))) by (unfold win; lia).
      split; [exact D|]. split; [lia|]. split; [exact W|]. rewrite <- (pos_back (cur s) (nb s)) by lia. auto.
Qed.

Lemma step_P1 s s' : inv s -> prod s = P1 -> istep B s PGo = Some s' -> inv s'.
Proof.
  intros I E H. pose proof I as (S & P & C & L). unfold istep in H. rewrite E in H. unfold prod_ok in P. rewrite E in P. destruct P as (T & V).
  rewrite (tail_next s _ S T) in H. replace (nb s - 1 + 1) with (nb s) in H by lia.
  destruct (slot_next s S) as [(D & Sl & K)|[(D & F & e & Sl & K)|(D & F & W & Sl & K)]]; rewrite Sl, K in H.
  - destruct (Z.eqb_spec (uwrap 64 (B * nb s)) INVALID) as [Q|_]; [now apply pow_even in Q|].
    rewrite (V D) in H. injection H as <-. apply move; [exact I|]. cbn. auto 6.
  - rewrite Z.eqb_refl in H. injection H as <-. apply move; [exact I|]. cbn. auto 6.
  - destruct (Z.eqb_spec (uwrap 64 (B * (nb s - cap (cur s)))) INVALID) as [Q|_]; [now apply pow_even in Q|].
    destruct (val (ents s (names s (nb s - cap (cur s))))) as [| |b] eqn:Ev.
    + exfalso. pose proof (cur_good _ _ S) as G. destruct S, G. pose proof (capp _ g_pow). apply (s_set _ W); [lia|exact Ev].
    + injection H as <-. apply move; [exact I|]. cbn. repeat split; auto. right. right. split; [exact F|].
      destruct (gone s (nb s - cap (cur s))) eqn:Gn; [exact Gn|]. pose proof (cur_good _ _ S) as G. destruct S, G. pose proof (capp _ g_pow).
      destruct (s_val (nb s - cap (cur s)) ltac:(lia) Gn) as (b & Eb & _). congruence.
    + injection H as <-. apply move; [exact I|]. cbn. repeat split; auto. change (lo (cur s) + cap (cur s) <= nb s). lia.
Qed.

Lemma step_stale s s' : inv s -> istep B s PStale = Some s' -> inv s'.
Proof.
  intros I H. pose proof I as (S & P & C & L). unfold istep in H. unfold prod_ok in P. destruct (prod s) eqn:E; try discriminate. destruct P as (T & V).
  rewrite (tail_next s _ S T) in H. replace (nb s - 1 + 1) with (nb s) in H by lia.
  destruct (slot_next s S) as [(D & Sl & K)|[(D & F & e & Sl & K)|(D & F & W & Sl & K)]]; rewrite Sl, K in H.
  - rewrite D in H. destruct (Z.eqb_spec (nb s + 1) (nb s)); [lia|]. rewrite andb_false_r in H. discriminate.
  - rewrite Z.eqb_refl in H. discriminate.
  - destruct (Z.eqb_spec (uwrap 64 (B * (nb s - cap (cur s)))) INVALID) as [Q|_]; [now apply pow_even in Q|].
    rewrite D, Z.eqb_refl in H. injection H as <-. apply move; [exact I|]. cbn. repeat split; auto. change (lo (cur s) + cap (cur s) <= nb s). lia.
Qed.

Lemma step_P1b s s' : inv s -> prod s = P1b -> istep B s PGo = Some s' -> inv s'.
Proof.
  intros I E H. pose proof I as (S & P & C & L). unfold istep in H. rewrite E in H. unfold prod_ok in P. rewrite E in P. destruct P as (T & D' & F').
  rewrite (tail_next s _ S T) in H. replace (nb s - 1 + 1) with (nb s) in H by lia.
  destruct (slot_next s S) as [(D & Sl & K)|[(D & F & e & Sl & K)|(D & F & W & Sl & K)]]; [lia| |lia]. rewrite Sl, K in H.
  rewrite Z.eqb_refl in H. injection H as <-. apply move; [exact I|]. cbn. auto 6.
Qed.

(** A header whose tails, counts and entries change. *)
Lemma hupd_cur (s : ist) h : fupd (hdrs s) (curh s) h (pred (nh s)) = h.
Proof. unfold curh. apply fupd_same. Qed.

Lemma append_tail s m p : structs s -> nb s - 1 <= m < cnt (cur s) ->
  let h := cur s in
  structs (at_p (set_hdr s (curh s) (mkHdr (cap h) (tails h ++ [pos h m]) (index h) (lo h) (cnt h))) p).
Proof.
  intros S M h. pose proof (cur_good _ _ S) as G. fold h in G. destruct S.
  assert (Hp : forall x, pos (mkHdr (cap h) (tails h ++ [pos h m]) (index h) (lo h) (cnt h)) x = pos h x) by reflexivity.
  unfold BlockIndexProofs.structs. cbn. constructor; rewrite ?hupd_cur; cbn; auto.
  - intros k K. destruct (Nat.eq_dec k (curh s)) as [->|N]; [rewrite fupd_same|rewrite fupd_other by auto; auto].
    destruct G. constructor; cbn; auto.
    + destruct (tails h); discriminate.
    + intros n j t Hn F1 F2 Ej. destruct (Nat.lt_ge_cases j (length (tails h))) as [Lj|Lj].
      * rewrite nth_error_app1 in Ej by auto. exact (g_tl n j t Hn F1 F2 Ej).
      * rewrite nth_error_app2 in Ej by auto. destruct (j - length (tails h))%nat as [|x]; [|destruct x; discriminate].
        injection Ej as <-. exists m. split; [fold h in M; lia|reflexivity].
  - intros k K. rewrite fupd_other by (unfold curh; lia). auto.
Qed.

Lemma append_inv s m p : inv s -> nb s - 1 <= m < cnt (cur s) ->
  let h := cur s in
  let s' := at_p (set_hdr s (curh s) (mkHdr (cap h) (tails h ++ [pos h m]) (index h) (lo h) (cnt h))) p in
  (tail_is s' m -> cur s' = mkHdr (cap h) (tails h ++ [pos h m]) (index h) (lo h) (cnt h) -> prod_ok s') -> inv s'.
Proof.
  intros (S & P & C & L) M h s' K. split; [now apply append_tail|]. split.
  - assert (E : cur s' = mkHdr (cap h) (tails h ++ [pos h m]) (index h) (lo h) (cnt h)) by (unfold cur, s', curh; cbn; apply fupd_same).
    apply K; auto. unfold tail_is. rewrite E. unfold tailv. cbn. apply last_last.
  - split; [|exact L]. intros c. apply (cons_mono s); try reflexivity; try lia; auto.
    intros k Hk. unfold s'. cbn. destruct (Nat.eq_dec k (curh s)) as [->|N]; [rewrite fupd_same; cbn; unfold h, cur; lia|rewrite fupd_other by auto; lia].
Qed.

Lemma step_P3 s s' e nt : inv s -> prod s = P3 e nt -> istep B s PGo = Some s' -> inv s'.
Proof.
  intros I E H. pose proof I as (S & P & C & L). unfold istep in H. rewrite E in H. unfold prod_ok in P. rewrite E in P. destruct P as (T & -> & -> & D).
  injection H as <-. apply append_inv; [exact I|lia|]. intros T' E'. refine (conj T' (conj eq_refl _)). rewrite E'. exact D.
Qed.
Lemma step_P5 s s' e : inv s -> prod s = P5 e -> istep B s PGo = Some s' -> inv s'.
Proof.
  intros I E H. pose proof I as (S & P & C & L). unfold istep in H. rewrite E in H. unfold prod_ok in P. rewrite E in P. destruct P as (T & -> & D).
  rewrite (tail_prev s _ S T) in H. injection H as <-. apply append_inv; [exact I|lia|]. intros T' E'. refine (conj T' (conj eq_refl _)). rewrite E'. exact D.
Qed.

(** Storing the value of the entry of the block that is being put. *)
Lemma pending_other s n : structs s -> cnt (cur s) = nb s + 1 -> 0 <= n < nb s -> gone s n = false -> names s n <> names s (nb s).
Proof.
  intros S D Hn Gn Q. pose proof (cur_good _ _ S) as G. destruct G. pose proof (capp _ g_pow).
  assert (W : win (cur s) n) by (apply g_use; auto; lia). assert (W' : win (cur s) (nb s)) by (unfold win; lia).
  pose proof (names_inj lb s n (nb s) S W W' Q). lia.
Qed.
Lemma pending_other_win s n : structs s -> cnt (cur s) = nb s + 1 -> win (cur s) n -> n < nb s -> names s n <> names s (nb s).
Proof.
  intros S D W Hn Q. pose proof (cur_good _ _ S) as G. destruct G. pose proof (capp _ g_pow).
  assert (W' : win (cur s) (nb s)) by (unfold win; lia).
  pose proof (names_inj lb s n (nb s) S W W' Q). lia.
Qed.

Lemma key_keep (f : nat -> ent) e v x : key (fupd f e (mkEnt (key (f e)) v) x) = key (f x).
Proof. destruct (Nat.eq_dec x e) as [->|N]; [now rewrite fupd_same|now rewrite fupd_other]. Qed.

Lemma step_P5b s s' e : inv s -> prod s = P5b e -> istep B s PGo = Some s' -> inv s'.
Proof.
  intros I E H. pose proof I as (S & P & C & L). unfold istep in H. rewrite E in H. unfold prod_ok in P. rewrite E in P. destruct P as (T & -> & D).
  injection H as <-. split; [|split; [|split]].
  - pose proof S as S0. destruct S. unfold BlockIndexProofs.structs. cbn. constructor; auto.
    + intros m W. rewrite key_keep. auto.
    + intros m M. destruct (s_fresh m M) as (e & E1 & E2). exists e. rewrite key_keep. auto.
    + intros n Hn Gn. rewrite fupd_other; auto. now apply pending_other.
    + intros n W Hn. rewrite fupd_other; auto. now apply pending_other_win.
  - cbn. split; [exact T|]. intros _. now rewrite fupd_same.
  - intros c. apply (cons_mono s); try reflexivity; try lia; auto. intros; cbn; lia.
  - intros i v [Q|Q]; [discriminate|]. exact (L i v Q).
Qed.

Lemma last_nth {A} (l : list A) d : l <> [] -> nth_error l (pred (length l)) = Some (last l d).
Proof.
  intros N. destruct (exists_last N) as (l' & a & ->). rewrite last_last, app_length. cbn. rewrite Nat.add_1_r. cbn.
  rewrite nth_error_app2 by lia. now rewrite Nat.sub_diag.
Qed.

Lemma step_P6 s s' e b : inv s -> prod s = P6 e b -> istep B s PGo = Some s' -> inv s'.
Proof.
  intros I E H. pose proof I as (S & P & C & L). unfold istep in H. rewrite E in H. unfold prod_ok in P. rewrite E in P. destruct P as (T & -> & D).
  injection H as <-. split; [|split; [|split]].
  - pose proof S as S0. pose proof (cur_good _ _ S) as G0. destruct S. unfold BlockIndexProofs.structs. cbn. fold (curh s) in *. fold (cur s) in *.
    assert (Ln : Z.to_nat (nb s) = length (blocks_put (ihist s))) by lia.
    constructor; fold (curh s); fold (cur s); auto; try lia.
    + intros k K. destruct (s_good k K). constructor; auto; try lia.
      * intros n Hn Gn Cn. destruct (Z.eq_dec n (nb s)) as [->|Nn]; [|apply g_use; auto; lia].
        destruct (Nat.eq_dec k (curh s)) as [->|Nk].
        -- fold (cur s) in *. unfold win. pose proof (capp _ g_pow). lia.
        -- specialize (s_old k ltac:(unfold curh in *; lia)). lia.
      * intros n j t Hn F1 F2 Ej. destruct (Z.eq_dec n (nb s)) as [->|Nn].
        -- rewrite zfupd_same in *. cbn in *. assert (k = curh s) by (unfold curh in *; lia). subst k.
           exists (nb s). fold (cur s) in *. split; [lia|].
           assert (Hj : (j < length (tails (cur s)))%nat) by (apply nth_error_Some; congruence).
           specialize (F2 eq_refl). assert (j = pred (length (tails (cur s)))) by lia. subst j.
           rewrite (last_nth _ 0 g_tls) in Ej. injection Ej as <-. exact T.
        -- rewrite zfupd_other in * by auto. apply (g_tl n j t); auto; lia.
    + intros k K. specialize (s_old k K). lia.
    + rewrite app_length. cbn. lia.
    + intros m W. rewrite key_keep. auto.
    + intros m M. destruct (s_fresh m M) as (e & E1 & E2). exists e. rewrite key_keep. auto.
    + intros n Hn Gn. destruct (Z.eq_dec n (nb s)) as [->|Nn].
      * exists b. rewrite fupd_same. split; [reflexivity|]. rewrite Ln, nth_error_app2, Nat.sub_diag by lia. reflexivity.
      * rewrite fupd_other by (apply pending_other; auto; lia). destruct (s_val n ltac:(lia) Gn) as (b' & E1 & E2). exists b'. split; [exact E1|].
        rewrite nth_error_app1; auto. lia.
    + intros n W Hn. destruct (Z.eq_dec n (nb s)) as [->|Nn]; [rewrite fupd_same; discriminate|].
      rewrite fupd_other by (apply pending_other_win; auto; lia). apply s_set; auto. lia.
    + intros n Hn. destruct (Z.eq_dec n (nb s)) as [->|Nn]; [rewrite zfupd_same; cbn; unfold curh; lia|rewrite zfupd_other by auto; apply s_pub; lia].
    + intros n Hn. apply s_gone. lia.
  - cbn. unfold tail_is, cur, curh in *. cbn. replace (nb s + 1 - 1) with (nb s) by lia. split; [exact T|]. intros Q. exfalso. lia.
  - intros c. apply (cons_mono s); try reflexivity; cbn; try lia; auto.
    intros n Hn. rewrite zfupd_other by lia. auto.
  - intros i v [Q|Q]; [discriminate|]. destruct (L i v Q) as (Z0 & b' & E1 & E2). split; [exact Z0|]. exists b'. split; [exact E1|].
    cbn. rewrite nth_error_app1; auto. apply nth_error_Some. congruence.
Qed.

(** Storing the key. *)
Lemma step_P2 s s' e nt : inv s -> prod s = P2 e nt -> istep B s PGo = Some s' -> inv s'.
Proof.
  intros I E H. pose proof I as (S & P & C & L). unfold istep in H. rewrite E in H. unfold prod_ok in P. rewrite E in P. destruct P as (T & -> & Sl & F).
  injection H as <-. pose proof S as S0. pose proof (cur_good _ _ S) as G0.
  assert (C2 : 2 <= cap (cur s)) by (destruct G0; now apply capp).
  assert (LoN : 0 <= lo (cur s) <= nb s) by (destruct G0; auto).
  set (h' := mkHdr (cap (cur s)) (tails (cur s)) (index (cur s)) (lo (cur s)) (nb s + 1)).
  assert (Cn : nb s <= cnt (cur s) <= nb s + 1) by (destruct S; unfold cur, curh; auto).
  assert (Nm : cnt (cur s) = nb s + 1 -> e = names s (nb s)).
  { intros D. destruct G0. assert (W : win (cur s) (nb s)) by (unfold win; lia). rewrite (g_win _ W) in Sl. congruence. }
  (* the new window, less the block being put, is part of the old one *)
  assert (Old : forall m, win h' m -> m <> nb s -> win (cur s) m).
  { intros m W N. unfold win, h' in W. cbn in W. unfold win. lia. }
  assert (Oth : forall m, win h' m -> m <> nb s -> names s m <> e).
  { intros m W N. apply (slot_not lb s e m S Sl (Old m W N) N). unfold win, h' in W. cbn in W. lia. }
  assert (Use : forall n, 0 <= n < nb s -> gone s n = false -> names s n <> e).
  { intros n Hn Gn. destruct G0. assert (W : win (cur s) n) by (apply g_use; auto; lia).
    destruct (Z.eq_dec n (nb s - cap (cur s))) as [->|N]; [|apply (slot_not lb s e n S Sl W); lia].
    destruct F as [F|[F|F]]; unfold win in W; try lia; destruct F; congruence. }
  split; [|split; [|split]].
  - destruct S. unfold BlockIndexProofs.structs. cbn. fold h'. fold (curh s) in *. fold (cur s) in *.
    constructor; fold (curh s); rewrite ?fupd_same; auto; try (cbn; lia).
    + intros k K. destruct (Nat.eq_dec k (curh s)) as [->|N]; [rewrite fupd_same|rewrite fupd_other by auto].
      * destruct G0. constructor; auto.
        -- intros m W. destruct (Z.eq_dec m (nb s)) as [->|Nm']; [rewrite zfupd_same; exact Sl|rewrite zfupd_other by auto; exact (g_win m (Old m W Nm'))].
        -- intros n Hn Gn _. assert (W : win (cur s) n) by (apply g_use; auto; lia). unfold win in *. cbn.
           destruct (Z.eq_dec n (nb s - cap (cur s))) as [->|N]; [|lia].
           destruct F as [F|[F|F]]; try lia; destruct F; congruence.
        -- intros n j t Hn F1 F2 Ej. destruct (g_tl n j t Hn F1 F2 Ej) as (m & M & Em). exists m. split; [cbn; lia|exact Em].
      * destruct (s_good k K). constructor; auto.
        intros m W. rewrite zfupd_other; auto. specialize (s_old k ltac:(unfold curh in *; lia)). unfold win in W. lia.
    + intros k K. rewrite fupd_other by (unfold curh in *; lia). auto.
    + intros m W. destruct (Z.eq_dec m (nb s)) as [->|Nm']; [rewrite zfupd_same, fupd_same; reflexivity|].
      rewrite zfupd_other by auto. rewrite fupd_other by (apply Oth; auto). apply s_key. now apply Old.
    + cbn. intros m M. change (pos h' m) with (pos (cur s) m). destruct (s_fresh m ltac:(lia)) as (e' & E1 & E2). exists e'. split; [exact E1|].
      rewrite fupd_other; [exact E2|]. intros ->.
      pose proof (pos_inj (cur s) m (nb s) e s_nodup C2 E1 Sl ltac:(lia)). lia.
    + intros n Hn Gn. rewrite zfupd_other by lia. rewrite fupd_other by (apply Use; auto). auto.
    + intros n W Hn. rewrite zfupd_other by lia. rewrite fupd_other by (apply Oth; auto; lia). apply s_set; auto. apply Old; auto. lia.
  - assert (Ec : forall q, fupd (hdrs s) (curh s) q (curh s) = q) by (intros; apply fupd_same).
    cbn. unfold tail_is, cur at 1 2 3 4. unfold curh at 1 2 3 4. cbn. fold (curh s). rewrite !Ec. rewrite zfupd_same. auto.
  - intros c. apply (cons_mono s); try reflexivity; cbn; try lia; auto.
    + intros n Hn. rewrite zfupd_other by lia. auto.
    + intros k Hk. destruct (Nat.eq_dec k (curh s)) as [->|N]; [rewrite fupd_same; cbn; unfold cur in *; lia|rewrite fupd_other by auto; lia].
  - exact L.
Qed.

End Inv.
