(** The digest objects against their promise. *)

From Coq Require Import ZArith List Lia Bool Arith.
From Verif Require Import Base Bits CppText TextLemmas TextSpec CMem Md5Spec Md5Model Md5Proofs Sha1Spec Sha1Model Sha1Proofs
  MessageDigestSpec MessageDigestModel.
Import ListNotations.
Open Scope Z_scope.

Definition md5_rel (e : engine) (msg : list Z) : Prop :=
  exists s h, e = Md5Engine s h false /\ hashed s msg /\ counted s (zlen msg).
Definition sha_rel (e : engine) (msg : list Z) : Prop :=
  exists c h, e = Sha1Engine c h false /\ sinv c msg.

Lemma new_md5_rel junk : length junk = 64%nat -> md5_rel (new_md5 junk) [].
Proof. intros L. eexists _, _. split; [reflexivity|]. apply init_ok. exact L. Qed.
Lemma new_sha_rel : sha_rel new_sha1 [].
Proof. eexists _, _. split; [reflexivity|]. apply sinv_init. Qed.

Lemma zlen_first (d : list Z) n : 0 <= n <= zlen d -> zlen (firstn (Z.to_nat n) d) = n.
Proof. intros N. unfold zlen in *. rewrite firstn_length. lia. Qed.

(** Lengths for which md5_append is defined whatever came before *)
Definition md5_small (m : cpp) (c : call) : Prop :=
  match c with
  | Update (Some _) n => match m with ISO => n < 2 ^ 29 | HW => n <= int_max - 63 end
  | _ => True
  end.

Lemma md5_length msg : zlen (md5 msg) = 16.
Proof. unfold md5. destruct (md5_blocks _ _ _) as [[[? ?] ?] ?]. reflexivity. Qed.
Lemma sha1_length msg : zlen (sha1 msg) = 20.
Proof. unfold sha1. destruct (sha_blocks _ _ _) as [[[[? ?] ?] ?] ?]. reflexivity. Qed.

Lemma md5_call m e msg c : md5_rel e msg -> honest c -> md5_small m c ->
  exists e', invoke m e c = Ok (e', snd (reply md5 16 md5_pad msg c)) /\ md5_rel e' (fst (reply md5 16 md5_pad msg c)).
Proof.
  intros R HN SM. pose proof R as (s & h & -> & H & C). destruct c as [[d|] n|[room|] n|]; cbn [invoke reply].
  - destruct HN as (N & _ & _). destruct (Z.eqb_spec n 0); [eexists; split; [reflexivity | exact R]|].
    cbn [engineUpdate]. pose proof (zlen_first d n N) as ZF. pose proof (firstn_skipn (Z.to_nat n) d) as SP.
    set (c := firstn (Z.to_nat n) d) in *. set (post := skipn (Z.to_nat n) d) in *.
    destruct (append_ok m s msg c post H C) as (s' & E & H' & C').
    { rewrite ZF. pose proof (Z.mod_pos_bound (zlen msg) 64 ltac:(lia)). destruct m; cbn in SM; unfold size_ok, int_max in *; lia. }
    rewrite SP, ZF in E. rewrite E. cbn [bind]. eexists. split; [reflexivity|]. cbn [fst]. eexists _, _. eauto.
  - eexists; split; [reflexivity | exact R].
  - cbn [digest_length]. destruct (Z.ltb_spec n 16); [eexists; split; [reflexivity | exact R]|].
    cbn [engineDigest negb]. unfold engineDigest. cbn [negb].
    destruct (finish_ok m s msg H C) as (s' & -> & H' & C'). cbn [bind]. rewrite md5_length. cbn in HN.
    destruct (Z.ltb_spec room 16); [lia|]. cbn [bind]. eexists; split; [reflexivity|]. cbn [fst]. eexists _, _. eauto.
  - eexists; split; [reflexivity | exact R].
  - eexists; split; [reflexivity|]. cbn [fst]. eexists _, _. split; [reflexivity|]. apply init_ok. destruct H as (_ & L & _). exact L.
Qed.
Lemma sha_call m e msg c : sha_rel e msg -> honest c ->
  exists e', invoke m e c = Ok (e', snd (reply sha1 20 (fun _ => []) msg c)) /\ sha_rel e' (fst (reply sha1 20 (fun _ => []) msg c)).
Proof.
  intros R HN. pose proof R as (s & h & -> & H). destruct c as [[d|] n|[room|] n|]; cbn [invoke reply].
  - destruct HN as (N & _ & F). destruct (Z.eqb_spec n 0); [eexists; split; [reflexivity | exact R]|].
    cbn [engineUpdate]. pose proof (zlen_first d n N) as ZF. pose proof (firstn_skipn (Z.to_nat n) d) as SP.
    assert (F' : Forall byte_ok (firstn (Z.to_nat n) d)) by (rewrite <- SP in F; apply Forall_app in F; tauto).
    set (c := firstn (Z.to_nat n) d) in *. set (post := skipn (Z.to_nat n) d) in *.
    destruct (update_ok c s msg post H F') as (s' & E & H'). rewrite SP, ZF in E. rewrite E. cbn [bind].
    eexists. split; [reflexivity|]. cbn [fst]. eexists _, _. eauto.
  - eexists; split; [reflexivity | exact R].
  - cbn [digest_length]. destruct (Z.ltb_spec n 20); [eexists; split; [reflexivity | exact R]|].
    unfold engineDigest. cbn [negb]. rewrite (final_ok s msg H). cbn [bind]. rewrite sha1_length. cbn in HN.
    destruct (Z.ltb_spec room 20); [lia|]. cbn [bind]. eexists; split; [reflexivity|]. cbn [fst].
    eexists _, _. split; [reflexivity | apply sinv_init].
  - eexists; split; [reflexivity | exact R].
  - eexists; split; [reflexivity|]. cbn [fst]. apply new_sha_rel.
Qed.

Lemma md5_calls m cs : forall e msg, md5_rel e msg -> Forall honest cs -> Forall (md5_small m) cs ->
  exists e', invoke_all m e cs = Ok (e', replies md5 16 md5_pad msg cs).
Proof.
  induction cs as [|c cs IH]; intros e msg R HN SM; [eexists; reflexivity|].
  inversion HN; inversion SM; subst. cbn [invoke_all replies].
  destruct (md5_call m e msg c R) as (e1 & -> & R1); auto. cbn [bind].
  destruct (reply md5 16 md5_pad msg c) as [msg' a]. cbn [fst snd] in *.
  destruct (IH e1 msg' R1) as (e2 & ->); auto. cbn [bind]. eexists. reflexivity.
Qed.
Lemma sha_calls m cs : forall e msg, sha_rel e msg -> Forall honest cs ->
  exists e', invoke_all m e cs = Ok (e', replies sha1 20 (fun _ => []) msg cs).
Proof.
  induction cs as [|c cs IH]; intros e msg R HN; [eexists; reflexivity|].
  inversion HN; subst. cbn [invoke_all replies].
  destruct (sha_call m e msg c R) as (e1 & -> & R1); auto. cbn [bind].
  destruct (reply sha1 20 (fun _ => []) msg c) as [msg' a]. cbn [fst snd] in *.
  destruct (IH e1 msg' R1) as (e2 & ->); auto. cbn [bind]. eexists. reflexivity.
Qed.

Lemma replies_app H n after cs1 cs2 : forall msg, exists msg',
  replies H n after msg (cs1 ++ cs2) = replies H n after msg cs1 ++ replies H n after msg' cs2.
Proof.
  induction cs1 as [|c cs1 IH]; intros msg; [exists msg; reflexivity|].
  cbn [app replies]. destruct (reply H n after msg c) as [m1 a]. destruct (IH m1) as (m2 & E). exists m2. rewrite E. reflexivity.
Qed.

Definition updates (chunks : list (list Z)) : list call := map (fun c => Update (Some c) (zlen c)) chunks.
Lemma replies_updates H n after chunks : forall msg rest, Forall (fun c => c <> []) chunks ->
  replies H n after msg (updates chunks ++ rest) = repeat Done (length chunks) ++ replies H n after (msg ++ concat chunks) rest.
Proof.
  induction chunks as [|c chunks IH]; intros msg rest F; [cbn; rewrite app_nil_r; reflexivity|].
  inversion F; subst. cbn [updates map app replies reply length repeat concat].
  destruct (Z.eqb_spec (zlen c) 0) as [E|E]; [destruct c; [contradiction | unfold zlen in E; cbn in E; lia]|].
  unfold zlen. rewrite Nat2Z.id, firstn_all. f_equal. fold (updates chunks). rewrite IH by assumption. rewrite <- app_assoc. reflexivity.
Qed.

(** The append of a chunk that makes offset + nbytes overflow *)
Lemma append_huge s msg d n : hashed s msg -> counted s (zlen msg) -> zlen msg mod 64 <> 0 ->
  n <= int_max -> int_max < zlen msg mod 64 + n -> md5_append HW s d n = UB OutOfBounds.
Proof.
  intros (_ & MB & _) (C0 & C1) NZ N G. unfold md5_append. rewrite C0, C1, off_val by apply zlen_nonneg. cbn zeta.
  pose proof (Z.mod_pos_bound (zlen msg) 64 ltac:(lia)) as OB.
  unfold sshl. cbn [bind]. unfold int_max in *. destruct (Z.leb_spec n 0); [lia|].
  destruct (Z.eqb_spec (zlen msg mod 64) 0); [lia|]. cbn [negb].
  unfold sadd. rewrite sres_HW by lia. cbn [bind].
  assert (W : wrap 32 (zlen msg mod 64 + n) = zlen msg mod 64 + n - 2 ^ 32).
  { transitivity (wrap 32 (zlen msg mod 64 + n - 2 ^ 32)).
    - apply wrap_eq_mod; [lia|]. rewrite <- (Z.mod_add (zlen msg mod 64 + n - 2 ^ 32) 1 (2 ^ 32)) by lia. f_equal. lia.
    - apply wrap_id; [lia|]. unfold in_s, smin, smax. lia. }
  rewrite W. destruct (Z.ltb_spec 64 (zlen msg mod 64 + n - 2 ^ 32)); [lia|].
  cbn [mbuf]. unfold copy_bytes.
  assert (B : (zlen msg mod 64 + n <=? zlen (mbuf s)) = false) by (apply Z.leb_gt; assert (zlen (mbuf s) = 64) by (unfold zlen; rewrite MB; reflexivity); lia).
  rewrite B, andb_false_r. reflexivity.
Qed.
