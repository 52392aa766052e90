(** C116: a loop over a ConcurrentHashMap with begin() and end(). *)

From Coq Require Import ZArith List Lia Bool.
From Verif Require Import Base Bits CuckooModel CuckooRunModel CuckooProofs1 CuckooProofs2 CuckooProofs3 CuckooProofs4 CuckooProofs5 CuckooProofs6 CuckooProofs7 CuckooProofs8 CuckooProofs9.
From Verif Require Import CuckooSpec CuckooProps CuckooIterModel CuckooIterSpec CuckooIterProofs CuckooIterProofs2.
Import ListNotations.
Open Scope Z_scope.

Section Props.
Context {K V : Type} (hash : K -> Z) (keq : K -> K -> bool) (simple nothrow : bool).
Context (keq_spec : forall a b, keq a b = true <-> a = b).
Notation table := (@table K V).
Notation perform_all := (perform_all hash keq simple nothrow).
Notation for_each := (for_each hash keq simple nothrow).

(** After any history [os], with any calls between the steps: if none of those
    calls stores a new key or is refused, the loop is left after at most as
    many steps as there are slots, without undefined behaviour; each mapping
    visited is in the map at that moment; no key is visited twice; and every
    key in the map at the end was visited.  The calls answer as those of a
    map. *)
Theorem C116_weakly_consistent n os (t : table) l0 body fuel log r :
  Z.of_nat (length os) < 2 ^ 62 -> (forall past, Z.of_nat (length (body past)) < 2 ^ 62) ->
  perform_all os (@fresh K V n) = Some (t, l0) -> (Z.to_nat (4 * hashsize (hp t)) <= fuel)%nat ->
  for_each fuel body t = (log, r) -> no_new_key log ->
  exists t' d d', r = Ended t' /\ leads os nothing l0 d /\ visits d log d' /\ NoDup (keys_of log) /\ (forall k, d' k <> None -> In k (keys_of log)).
Proof.
  intros B HB E0 FU E N. assert (B63 : (2 : Z) ^ 62 < 2 ^ 63) by reflexivity.
  destruct (perform_all_leads hash keq simple nothrow keq_spec os (fresh n) [] t l0 (rep_fresh hash n) ltac:(unfold zlen; cbn; lia) E0) as (m & R & Z1 & LD).
  unfold zlen in Z1. cbn [length Z.of_nat] in Z1.
  destruct (for_each_ok hash keq simple nothrow keq_spec body fuel t m log r HB R ltac:(unfold zlen; lia) FU E N) as (t' & m' & -> & R' & VI & ND & CO).
  exists t', (dict_of keq m), (dict_of keq m'). split; [reflexivity|]. split; [exact LD|]. split; [exact VI|]. split; [exact ND|].
  intros k D. destruct (dict_of keq m' k) as [v|] eqn:X; [|contradiction]. apply (dict_in keq keq_spec) in X; [|apply R']. exact (CO k v X).
Qed.

(** Calls that cannot store a key *)
Definition removing (o : @op K V) : Prop := match o with Put _ _ => False | _ => True end.
Lemma perform_removing o (t t' : table) a : removing o -> CuckooRunModel.perform hash keq simple nothrow o t = Some (t', a) -> a <> Stored true /\ a <> Refused.
Proof.
  destruct o; cbn [removing CuckooRunModel.perform]; intros X E; try contradiction.
  - destruct (find _ _ _ _ _); try discriminate. injection E as _ <-. split; discriminate.
  - destruct (erase _ _ _ _ _); try discriminate. injection E as _ <-. split; discriminate.
  - injection E as _ <-. split; discriminate.
  - injection E as _ <-. split; discriminate.
  - destruct (walk _ _); try discriminate. injection E as _ <-. split; discriminate.
Qed.
Lemma perform_all_removing : forall os (t t' : table) l, Forall removing os -> perform_all os t = Some (t', l) -> nothing_new l.
Proof.
  induction os as [|o os IH]; intros t t' l F E; cbn [CuckooRunModel.perform_all] in E.
  - injection E as _ <-. split; intros [].
  - inversion F as [|? ? F1 F2]; subst. destruct (CuckooRunModel.perform _ _ _ _ o t) as [[t1 a]|] eqn:E1; [|discriminate].
    destruct (perform_all os t1) as [[t2 l2]|] eqn:E2; [|discriminate]. injection E as _ <-.
    destruct (perform_removing o t t1 a F1 E1) as [A1 A2]. destruct (IH t1 t2 l2 F2 E2) as [B1 B2].
    split; intros [X|X]; congruence || contradiction.
Qed.
Lemma loop_removing body stop : (forall past, Forall removing (body past)) -> forall fuel (t : table) p past log r,
  loop hash keq simple nothrow fuel body stop t p past = (log, r) -> no_new_key log.
Proof.
  intros F. induction fuel as [|fuel IH]; intros t p past log r E; cbn [loop] in E.
  - destruct (same_place p stop); injection E as <- _; constructor.
  - destruct (same_place p stop); [injection E as <- _; constructor|].
    destruct (deref t p) as [x| | |]; try (injection E as <- _; constructor).
    cbv zeta in E. destruct (perform_all (body (past ++ [x])) t) as [[t1 l]|] eqn:E1; [|injection E as <- _; constructor].
    destruct (loop _ _ _ _ fuel body stop t1 (advance t1 p) (past ++ [x])) as [log1 r1] eqn:E2. injection E as <- _.
    constructor; [|exact (IH _ _ _ _ _ E2)]. cbn [snd]. exact (perform_all_removing _ _ _ _ (F _) E1).
Qed.
(** So a loop whose body (and the other threads) only reads, removes and
    clears always works; nothing about the answers has to be assumed. *)
Theorem C116_reading_and_removing n os (t : table) l0 body :
  Z.of_nat (length os) < 2 ^ 62 -> (forall past, Z.of_nat (length (body past)) < 2 ^ 62 /\ Forall removing (body past)) ->
  perform_all os (@fresh K V n) = Some (t, l0) ->
  exists log t' d d', (forall fuel, (Z.to_nat (4 * hashsize (hp t)) <= fuel)%nat -> exists t1, for_each fuel body t = (log, Ended t1)) /\
    for_each (Z.to_nat (4 * hashsize (hp t))) body t = (log, Ended t') /\
    leads os nothing l0 d /\ visits d log d' /\ NoDup (keys_of log) /\ (forall k, d' k <> None -> In k (keys_of log)).
Proof.
  intros B HB E0.
  assert (NN : forall fuel log r, for_each fuel body t = (log, r) -> no_new_key log).
  { intros fuel log r E. unfold CuckooIterModel.for_each in E. destruct (rehash_all hash t) as [t1 []| | |]; try (injection E as <- _; constructor).
    destruct (rehash_all hash t1) as [t2 []| | |]; try (injection E as <- _; constructor). refine (loop_removing body _ _ _ _ _ _ _ _ E). intros past. apply HB. }
  destruct (for_each (Z.to_nat (4 * hashsize (hp t))) body t) as [log r] eqn:E.
  destruct (C116_weakly_consistent n os t l0 body _ log r B (fun past => proj1 (HB past)) E0 (le_n _) E (NN _ _ _ E)) as (t' & d & d' & -> & LD & VI & ND & CO).
  exists log, t', d, d'. split; [|auto].
  assert (MORE : forall stop f f' t p past log t', (f <= f')%nat -> loop hash keq simple nothrow f body stop t p past = (log, Ended t') -> loop hash keq simple nothrow f' body stop t p past = (log, Ended t')).
  { clear. intros stop. induction f as [|f IH]; intros f' t p past log t' L E.
    - destruct f'; cbn [loop] in E |- *; destruct (same_place p stop); congruence.
    - destruct f' as [|f']; [lia|]. cbn [loop] in E |- *. destruct (same_place p stop); [exact E|]. destruct (deref t p); try discriminate. cbv zeta in E |- *.
      destruct (perform_all (body (past ++ [a])) t) as [[t1 l]|]; [|discriminate].
      destruct (loop _ _ _ _ f body stop t1 (advance t1 p) (past ++ [a])) as [log1 r1] eqn:E1. injection E as <- ->. rewrite (IH f' _ _ _ _ _ ltac:(lia) E1). reflexivity. }
  intros fuel LF. exists t'. unfold CuckooIterModel.for_each in E |- *. destruct (rehash_all hash t) as [t1 []| | |]; try discriminate. destruct (rehash_all hash t1) as [t2 []| | |]; try discriminate.
  exact (MORE _ _ _ _ _ _ _ _ LF E).
Qed.

(** If nothing is called during the loop, it visits exactly the mappings. *)
Theorem C116_quiet n os (t : table) l0 :
  Z.of_nat (length os) < 2 ^ 62 -> perform_all os (@fresh K V n) = Some (t, l0) ->
  exists log t' d, for_each (Z.to_nat (4 * hashsize (hp t))) (fun _ => []) t = (log, Ended t') /\ leads os nothing l0 d /\ NoDup (keys_of log) /\
    forall k v, In (k, v) (map (fun x => fst (fst x)) log) <-> d k = Some v.
Proof.
  intros B E0. destruct (C116_reading_and_removing n os t l0 (fun _ => []) B ltac:(intros; cbn [length]; split; [reflexivity|constructor]) E0) as (log & t' & d & d' & _ & E & LD & VI & ND & CO).
  exists log, t', d. split; [exact E|]. split; [exact LD|]. split; [exact ND|].
  assert (Q : forall log d, visits d log d' -> Forall (fun x : visit => snd (fst x) = [] ) log -> (forall k, d' k = d k) /\ forall k v, In (k, v) (map (fun x => fst (fst x)) log) -> d k = Some v).
  { clear. induction log as [|[[[k v] os] l] log IH]; intros d VI F.
    - split; [exact VI|]. intros k v [].
    - inversion F as [|? ? F1 F2]; subst. cbn in F1. subst os. cbn [visits] in VI. destruct VI as (V1 & d1 & V2 & V3). destruct l; [|contradiction]. cbn [leads] in V2.
      destruct (IH d1 V3 F2) as [A1 A2]. split; [intros k0; rewrite A1; apply V2|]. intros k0 v0 [X|X]; [injection X as <- <-; exact V1|]. rewrite <- V2. now apply A2. }
  assert (F : Forall (fun x : visit => snd (fst x) = []) log).
  { clear - E. unfold CuckooIterModel.for_each in E. destruct (rehash_all hash t) as [t1 []| | |]; try discriminate. destruct (rehash_all hash t1) as [t2 []| | |]; try discriminate.
    remember (end_pos t2) as stop eqn:Hs; clear Hs. remember (Z.to_nat (4 * hashsize (hp t))) as f eqn:Hf; clear Hf. remember (settle t1 0 0) as p eqn:Hp; clear Hp. remember (@nil (K * V)) as past eqn:Hq; clear Hq.
    revert log t2 p past E. induction f as [|f IH]; intros log t0 p past E; cbn [loop] in E.
    - destruct (same_place p stop); [|discriminate]. injection E as <- _. constructor.
    - destruct (same_place p stop); [injection E as <- _; constructor|]. destruct (deref t0 p); try discriminate. cbn [CuckooRunModel.perform_all] in E.
      destruct (loop _ _ _ _ f _ stop t0 (advance t0 p) (past ++ [a])) as [log1 r1] eqn:E1. injection E as <- ->. constructor; [reflexivity|]. exact (IH _ _ _ _ E1). }
  destruct (Q log d VI F) as [Q1 Q2]. intros k v. split; [apply Q2|]. intros D.
  assert (I : In k (keys_of log)) by (apply CO; rewrite Q1; congruence). unfold keys_of in I. apply in_map_iff in I as (x & <- & I).
  assert (IV : In (fst (fst (fst x)), snd (fst (fst x))) (map (fun x => fst (fst x)) log)) by (apply in_map_iff; exists x; split; [now destruct (fst (fst x))|exact I]).
  rewrite (Q2 _ _ IV) in D. injection D as <-. exact IV.
Qed.
End Props.

Definition puts (l : list Z) : list (@op Z Z) := map (fun k => Put k (10 * k)) l.
Definition once (l : list Z) (past : list (Z * Z)) : list (@op Z Z) := if Nat.eqb (length past) 1 then puts l else [].
(** Java's iterators never fail and visit what stays in the map.  Here, when
    the body puts new keys: the table grows, the end taken before is an
    ordinary slot now, and the loop runs out of the table. *)
Theorem C116_growth_refuted : exists os (t : @table Z Z) l0 log,
  CuckooRunModel.perform_all ident Z.eqb true true os (fresh 4) = Some (t, l0) /\
  for_each ident Z.eqb true true 60 (once [7; 9]) t = (log, Crashed OutOfBounds) /\
  Forall (fun x => ~ In Refused (snd x)) log /\ ~ NoDup (keys_of log).
Proof.
  exists (puts [1; 3; 5]). do 3 eexists. split; [vm_compute; reflexivity|]. split; [vm_compute; reflexivity|]. split.
  - repeat constructor; cbn; intros X; repeat destruct X as [X|X]; discriminate || contradiction.
  - cbn. intros N. inversion N as [|? ? N1 _]. apply N1. cbn. auto 10.
Qed.
(** And without growth: one put of a new key moves an entry not yet visited
    to a bucket already passed; it stays in the map and is never visited. *)
Theorem C116_put_refuted : exists os (t : @table Z Z) l0 log t',
  CuckooRunModel.perform_all ident Z.eqb true true os (fresh 16) = Some (t, l0) /\
  for_each ident Z.eqb true true 60 (once [771]) t = (log, Ended t') /\ hp t' = hp t /\
  In (Stored true) l0 /\ In (Put 271 2710) os /\ ~ In 271 (keys_of log) /\
  exists t2, CuckooModel.find ident Z.eqb true 271 t' = Done t2 (Some 2710).
Proof.
  exists (puts [0; 259; 263; 267; 271; 514; 518; 522; 526]). do 4 eexists. split; [vm_compute; reflexivity|]. split; [vm_compute; reflexivity|]. split; [vm_compute; reflexivity|].
  split; [vm_compute; auto|]. split; [cbn; auto 10|]. split; [cbn; intros X; repeat destruct X as [X|X]; discriminate || contradiction|]. eexists. vm_compute. reflexivity.
Qed.

(** A loop that removes every second mapping it visits and overwrites the others. *)
Definition every_second (past : list (Z * Z)) : list (@op Z Z) :=
  match rev past with (k, v) :: _ => if Nat.even (length past) then [Del k] else [Put k 0; Get k; Size] | [] => [] end.
Example C116_ex : match CuckooRunModel.perform_all ident Z.eqb true true (puts [1; 2; 3; 4; 5; 6]) (fresh 16) with
  | Some (t, _) => match for_each ident Z.eqb true true 16 every_second t with
      | (log, Ended t') => (map (fun x => fst (fst x)) log, match walk ident t' with Done _ l => l | _ => [] end) | _ => ([], []) end
  | None => ([], []) end = ([(4, 40); (5, 50); (1, 10); (6, 60); (2, 20); (3, 30)], [(4, 0); (1, 0); (2, 0)]).
Proof. vm_compute. reflexivity. Qed.
Print Assumptions C116_weakly_consistent. Print Assumptions C116_reading_and_removing. Print Assumptions C116_quiet.
Print Assumptions C116_growth_refuted. Print Assumptions C116_put_refuted.
