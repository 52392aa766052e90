(** C46 MD5 digest, C47 SHA-1 digest, C48 life cycle of a message digest. *)

From Coq Require Import ZArith List Lia Bool String.
From Verif Require Import Base Bits CppText TextSpec TextLemmas CMem Md5Spec Md5Model Md5Proofs Sha1Spec Sha1Model Sha1Proofs
  MessageDigestSpec MessageDigestModel MessageDigestProofs.
Import ListNotations.
Open Scope Z_scope.
Local Notation length := List.length.

(** ** C46: MD5 *)

(** Whatever the inputs and their splitting into updates, the digest is the
    RFC 1321 hash of the concatenation.  Each update gives at most
    2147483584 bytes (ISO C++: fewer than 2^29). *)
Theorem C46_digest_partial : forall m junk chunks room,
  length junk = 64%nat -> 16 <= room ->
  Forall (fun c => c <> [] /\ Forall byte_ok c /\ zlen c <= match m with HW => 2147483584 | ISO => 2 ^ 29 - 1 end) chunks ->
  exists e0 e, getInstance junk (T "MD5") = Ok e0 /\
    invoke_all m e0 (map (fun c => Update (Some c) (zlen c)) chunks ++ [Digest (Some room) room]) =
    Ok (e, repeat Done (length chunks) ++ [Hash (md5 (List.concat chunks))]).
Proof.
  intros m junk chunks room J RM F. exists (new_md5 junk).
  destruct (md5_calls m (updates chunks ++ [Digest (Some room) room]) (new_md5 junk) [] (new_md5_rel junk J)) as (e & E).
  - apply Forall_app. split; [| repeat constructor; cbn; lia]. apply Forall_map. eapply Forall_impl; [|exact F].
    intros c (_ & B & L). cbn. pose proof (zlen_nonneg c). unfold int_max. repeat split; try assumption; destruct m; lia.
  - apply Forall_app. split; [| repeat constructor]. apply Forall_map. eapply Forall_impl; [|exact F].
    intros c (_ & B & L). cbn. unfold int_max. destruct m; lia.
  - exists e. split; [reflexivity|]. fold (updates chunks). rewrite E, replies_updates.
    + cbn [replies reply app]. destruct (Z.ltb_spec room 16); [lia|]. reflexivity.
    + eapply Forall_impl; [|exact F]. intros c (NE & _). exact NE.
Qed.
Print Assumptions C46_digest_partial.

(** The exact limit of one update on gcc/x86-64: after [msg], an update of n
    bytes works as long as |msg| mod 64 + n is an int; otherwise, unless
    |msg| is a multiple of 64, it writes outside the 64-byte buffer. *)
Theorem C46_limit : forall s h msg d n,
  hashed s msg -> counted s (zlen msg) -> 0 < n <= zlen d -> n <= int_max ->
  (zlen msg mod 64 + n <= int_max ->
   exists s', invoke HW (Md5Engine s h false) (Update (Some d) n) = Ok (Md5Engine s' h false, Done) /\
     hashed s' (msg ++ firstn (Z.to_nat n) d) /\ counted s' (zlen (msg ++ firstn (Z.to_nat n) d))) /\
  (int_max < zlen msg mod 64 + n ->
   invoke HW (Md5Engine s h false) (Update (Some d) n) = UB OutOfBounds).
Proof.
  intros s h msg d n H C N M. cbn [invoke engineUpdate]. destruct (Z.eqb_spec n 0); [lia|]. split; intros L.
  - assert (N' : 0 <= n <= zlen d) by lia. pose proof (zlen_first d n N') as ZF. pose proof (firstn_skipn (Z.to_nat n) d) as SP.
    destruct (append_ok HW s msg (firstn (Z.to_nat n) d) (skipn (Z.to_nat n) d) H C) as (s' & E & H' & C').
    { rewrite ZF. cbn. lia. }
    rewrite SP, ZF in E. rewrite E. cbn [bind]. exists s'. auto.
  - rewrite (append_huge s msg d n H C) by lia. reflexivity.
Qed.
Print Assumptions C46_limit.

(** So an update of 2147483647 bytes after an update of one byte fails. *)
Theorem C46_huge_refuted : forall junk, length junk = 64%nat ->
  exists d, zlen d = 2147483647 /\ Forall byte_ok d /\
    invoke_all HW (new_md5 junk) [Update (Some [0]) 1; Update (Some d) 2147483647] = UB OutOfBounds.
Proof.
  intros junk J.
  assert (X : forall k, exists d : list Z, zlen d = Z.of_nat k /\ Forall byte_ok d).
  { intros k. exists (repeat 0 k). split; [unfold zlen; rewrite repeat_length; reflexivity|].
    apply Forall_forall. intros y Y. apply repeat_spec in Y. subst. unfold byte_ok. lia. }
  destruct (X (Z.to_nat 2147483647)) as (d & L & B). rewrite Z2Nat.id in L by lia. clear X.
  exists d. split; [exact L|]. split; [exact B|].
  destruct (new_md5_rel junk J) as (s & h & E & H & C).
  cbn [invoke_all]. rewrite E.
  destruct (C46_limit s h [] [0] 1 H C ltac:(cbn; lia) ltac:(unfold int_max; lia)) as (K & _).
  destruct K as (s' & -> & H' & C'); [cbn; unfold int_max; lia|]. cbn [bind].
  destruct (C46_limit s' h _ d 2147483647 H' C') as (_ & K2); [lia | unfold int_max; lia|].
  rewrite K2; [reflexivity|]. change (zlen ([] ++ firstn (Z.to_nat 1) [0])) with 1. unfold int_max. vm_compute. reflexivity.
Qed.
Print Assumptions C46_huge_refuted.

(** ISO C++: the shift of the length is undefined from 2^29 bytes on. *)
Theorem C46_shift_iso : forall s h d n, 2 ^ 29 <= n -> invoke ISO (Md5Engine s h false) (Update (Some d) n) = UB BadShift.
Proof.
  intros s h d n N. cbn [invoke engineUpdate]. destruct (Z.eqb_spec n 0); [lia|]. unfold md5_append, sshl.
  rewrite Z.shiftl_mul_pow2 by lia. replace (n * 2 ^ 3 <? 2 ^ 32) with false by (symmetry; apply Z.ltb_ge; lia).
  rewrite andb_false_r. reflexivity.
Qed.
Print Assumptions C46_shift_iso.

(** The specification gives the test values of RFC 1321, and the hypotheses of the theorems are met. *)
Example C46_example :
  md5 (T "abc") = [0x90; 0x01; 0x50; 0x98; 0x3c; 0xd2; 0x4f; 0xb0; 0xd6; 0x96; 0x3f; 0x7d; 0x28; 0xe1; 0x7f; 0x72] /\
  md5 [] = [0xd4; 0x1d; 0x8c; 0xd9; 0x8f; 0x00; 0xb2; 0x04; 0xe9; 0x80; 0x09; 0x98; 0xec; 0xf8; 0x42; 0x7e] /\
  exists e, invoke_all HW (new_md5 (repeat None 64)) [Update (Some (T "a")) 1; Update (Some (T "bcd")) 2; Digest (Some 16) 16] =
            Ok (e, [Done; Done; Hash (md5 (T "abc"))]).
Proof. split; [vm_compute; reflexivity|]. split; [vm_compute; reflexivity|]. eexists. vm_compute. reflexivity. Qed.

(** ** C47: SHA-1 *)

Theorem C47_digest : forall m junk chunks room, 20 <= room ->
  Forall (fun c => c <> [] /\ Forall byte_ok c /\ zlen c <= int_max) chunks ->
  exists e0 e, getInstance junk (T "SHA1") = Ok e0 /\
    invoke_all m e0 (map (fun c => Update (Some c) (zlen c)) chunks ++ [Digest (Some room) room]) =
    Ok (e, repeat Done (length chunks) ++ [Hash (sha1 (List.concat chunks))]).
Proof.
  intros m junk chunks room RM F. exists new_sha1.
  destruct (sha_calls m (updates chunks ++ [Digest (Some room) room]) new_sha1 [] new_sha_rel) as (e & E).
  - apply Forall_app. split; [| repeat constructor; cbn; lia]. apply Forall_map. eapply Forall_impl; [|exact F].
    intros c (_ & B & L). cbn. pose proof (zlen_nonneg c). repeat split; try assumption; lia.
  - exists e. split; [reflexivity|]. fold (updates chunks). rewrite E, replies_updates.
    + cbn [replies reply app]. destruct (Z.ltb_spec room 20); [lia|]. reflexivity.
    + eapply Forall_impl; [|exact F]. intros c (NE & _). exact NE.
Qed.
Print Assumptions C47_digest.

(** FIPS 180 test values *)
Example C47_example :
  sha1 (T "abc") = [0xa9; 0x99; 0x3e; 0x36; 0x47; 0x06; 0x81; 0x6a; 0xba; 0x3e; 0x25; 0x71; 0x78; 0x50; 0xc2; 0x6c; 0x9c; 0xd0; 0xd8; 0x9d] /\
  sha1 (T "abcdbcdecdefdefgefghfghighijhijkijkljklmklmnlmnomnopnopq") =
    [0x84; 0x98; 0x3e; 0x44; 0x1c; 0x3b; 0xd2; 0x6e; 0xba; 0xae; 0x4a; 0xa1; 0xf9; 0x51; 0x29; 0xe5; 0xe5; 0x46; 0x70; 0xf1] /\
  exists e, invoke_all HW new_sha1 [Update (Some (T "a")) 1; Update (Some (T "bcd")) 2; Digest (Some 20) 20] =
            Ok (e, [Done; Done; Hash (sha1 (T "abc"))]).
Proof. split; [vm_compute; reflexivity|]. split; [vm_compute; reflexivity|]. eexists. vm_compute. reflexivity. Qed.

(** ** C48: life cycle *)

(** SHA-1: in every history, every answer is the promised one; [digest] also
    resets the object, as in Java. *)
Theorem C48_sha1_history : forall m cs, Forall honest cs ->
  exists e, invoke_all m new_sha1 cs = Ok (e, replies sha1 20 (fun _ => []) [] cs).
Proof. intros m cs H. exact (sha_calls m cs new_sha1 [] new_sha_rel H). Qed.
Print Assumptions C48_sha1_history.

(** MD5: in every history the answers are those of an object that, after a
    digest, continues with the padded message. *)
Theorem C48_md5_history : forall m junk cs, length junk = 64%nat -> Forall honest cs -> Forall (md5_small m) cs ->
  exists e, invoke_all m (new_md5 junk) cs = Ok (e, replies md5 16 md5_pad [] cs).
Proof. intros m junk cs J H S. exact (md5_calls m cs (new_md5 junk) [] (new_md5_rel junk J) H S). Qed.
Print Assumptions C48_md5_history.

(** Hence MD5 keeps the promise (of Java, and of an object that keeps its
    data) in the histories where every digest that answers is followed by a reset. *)
Fixpoint resets (cs : list call) : Prop :=
  match cs with
  | [] => True
  | Digest (Some _) _ :: r => match r with [] => True | Reset :: r' => resets r' | _ => False end
  | _ :: r => resets r
  end.
Theorem C48_md5_resets_partial : forall m junk cs after, length junk = 64%nat -> Forall honest cs -> Forall (md5_small m) cs -> resets cs ->
  exists e, invoke_all m (new_md5 junk) cs = Ok (e, replies md5 16 after [] cs).
Proof.
  intros m junk cs after J H S R. destruct (C48_md5_history m junk cs J H S) as (e & E). exists e. rewrite E. do 2 f_equal.
  clear - R. generalize (@nil Z). remember (length cs) as n eqn:N. assert (B : (length cs <= n)%nat) by lia. clear N.
  revert cs B R. induction n as [|n IH]; intros cs B R msg; destruct cs as [|c cs]; try reflexivity; [cbn in B; lia|].
  cbn [length] in B. destruct c as [[d|] k|[room|] k|]; cbn [replies reply].
  - destruct (k =? 0); f_equal; apply IH; try exact R; lia.
  - f_equal; apply IH; try exact R; lia.
  - cbn [resets] in R. destruct cs as [|[| |] cs]; try contradiction; destruct (k <? 16); try reflexivity;
    cbn [replies reply]; do 2 f_equal; apply IH; try exact R; cbn [length] in B; lia.
  - f_equal; apply IH; try exact R; lia.
  - f_equal; apply IH; try exact R; lia.
Qed.
Print Assumptions C48_md5_resets_partial.

(** A second digest without a reset answers neither the hash of the same
    data nor that of the empty message. *)
Theorem C48_md5_again_refuted : exists e first second,
  invoke_all HW (new_md5 (repeat None 64)) [Update (Some (T "abc")) 3; Digest (Some 16) 16; Digest (Some 16) 16] =
    Ok (e, [Done; Hash first; Hash second]) /\
  first = md5 (T "abc") /\ second <> md5 (T "abc") /\ second <> md5 [].
Proof.
  eexists _, _, _. split; [vm_compute; reflexivity|].
  split; [vm_compute; reflexivity | split; intros E; vm_compute in E; discriminate].
Qed.
Print Assumptions C48_md5_again_refuted.

(** After a reset an object answers like a new one, whatever happened before. *)
Theorem C48_reset : forall m junk before later, length junk = 64%nat ->
  Forall honest (before ++ later) -> Forall (md5_small m) (before ++ later) ->
  (exists e1 e2 a b, invoke_all m (new_md5 junk) (before ++ Reset :: later) = Ok (e1, a ++ Done :: b) /\
     length a = length before /\ invoke_all m (new_md5 junk) later = Ok (e2, b)) /\
  (exists e1 e2 a b, invoke_all m new_sha1 (before ++ Reset :: later) = Ok (e1, a ++ Done :: b) /\
     length a = length before /\ invoke_all m new_sha1 later = Ok (e2, b)).
Proof.
  intros m junk before later J H S. apply Forall_app in H, S. destruct H as (H1 & H2), S as (S1 & S2).
  assert (LEN : forall F n after cs msg, length (replies F n after msg cs) = length cs).
  { intros F n after cs. induction cs as [|c cs IH]; intros msg; [reflexivity|]. cbn [replies]. destruct (reply F n after msg c).
    cbn [length]. rewrite IH. reflexivity. }
  split.
  - destruct (C48_md5_history m junk (before ++ Reset :: later) J) as (e1 & E1);
      [apply Forall_app; split; [assumption | constructor; [exact I | assumption]] .. |].
    destruct (C48_md5_history m junk later J H2 S2) as (e2 & E2).
    destruct (replies_app md5 16 md5_pad before (Reset :: later) []) as (msg & E). rewrite E in E1.
    exists e1, e2. eexists _, _. split; [exact E1|]. split; [apply LEN | exact E2].
  - destruct (C48_sha1_history m (before ++ Reset :: later)) as (e1 & E1);
      [apply Forall_app; split; [assumption | constructor; [exact I | assumption]] |].
    destruct (C48_sha1_history m later H2) as (e2 & E2).
    destruct (replies_app sha1 20 (fun _ => []) before (Reset :: later) []) as (msg & E). rewrite E in E1.
    exists e1, e2. eexists _, _. split; [exact E1|]. split; [apply LEN | exact E2].
Qed.
Print Assumptions C48_reset.

(** Null pointers, empty inputs and too small buffers are rejected and change nothing. *)
Theorem C48_rejected : forall m e d n room, 
  invoke m e (Update None n) = Ok (e, Thrown InterruptedException) /\
  invoke m e (Update (Some d) 0) = Ok (e, Thrown InterruptedException) /\
  invoke m e (Digest None n) = Ok (e, Thrown InterruptedException) /\
  (n < match e with Md5Engine _ _ _ => 16 | Sha1Engine _ _ _ => 20 end ->
   invoke m e (Digest (Some room) n) = Ok (e, Thrown InterruptedException)).
Proof.
  intros m e d n room. repeat split. intros L. cbn [invoke]. destruct e; cbn [digest_length];
  (destruct (Z.ltb_spec n 16) || destruct (Z.ltb_spec n 20)); try lia; try reflexivity;
  destruct (Z.ltb_spec n 20); try lia; reflexivity.
Qed.
Print Assumptions C48_rejected.

(** Only the two algorithms exist. *)
Theorem C48_algorithms : forall junk a, a <> T "MD5" -> a <> T "SHA1" -> getInstance junk a = Throw NoSuchAlgorithmException.
Proof.
  intros junk a A B. unfold getInstance.
  destruct (str_eqb a (T "MD5")) eqn:E; [apply str_eqb_eq in E; contradiction|].
  destruct (str_eqb a (T "SHA1")) eqn:E2; [apply str_eqb_eq in E2; contradiction|]. reflexivity.
Qed.
Print Assumptions C48_algorithms.

(** Destroying an object and a copy of it frees the engine twice. *)
Theorem C48_copy_refuted : forall h spi, nth_error h spi = Some true ->
  (let* h1 := destroy h spi in destroy h1 (copy_object spi)) = UB DoubleFree.
Proof.
  intros h spi L. unfold destroy, copy_object. rewrite L. cbn [bind].
  assert (E : nth_error (upd h spi false) spi = Some false).
  { revert spi L. induction h as [|b h IH]; intros spi L; destruct spi; try discriminate; cbn in *; [reflexivity | apply IH; exact L]. }
  rewrite E. reflexivity.
Qed.
Print Assumptions C48_copy_refuted.
