(** C84, continued: a call that takes several permits takes as many as it may. *)

From Coq Require Import ZArith List Bool Lia.
From Verif Require Import Base Bits LwSemModel LwSemSpec LwSemProofs.
Import ListNotations.
Open Scope Z_scope.

Section Any.
Variables (permits : Z) (n : nat) (a : sys).
(* any initial count, fewer than 2^31 threads, fewer than 2^63 permits in all *)
Hypotheses (P0 : 0 <= permits) (N : Z.of_nat n < 2 ^ 31) (R : reach permits n a) (BD : permits + signalled a < 2 ^ 63).

(** The step in which tryWaitMany returns changes the count by what it returns: nothing, or all that
    is there up to [max] *)
Theorem C84_tryWaitMany_takes_all i max p c' s' r : thread_at a i (TryWaitMany max) p -> tstep (count a) (sema a) p c' s' (Done r) ->
  s' = sema a /\ c' = count a - r /\ (r = 0 \/ r = Z.min max (count a) /\ 0 < count a).
Proof.
  intros E ST. destruct (reach_inv permits n a P0 N R BD) as [OK _ _ _ _ _ _]. pose proof (OK _ (nth_error_In _ _ E)) as O. cbn [fst snd] in O.
  destruct p; cbn [pc_ok] in O; try (exfalso; inversion ST; fail).
  all: try (exfalso; destruct O as [(C & _)|(C & _)]; discriminate C).
  - destruct O as [(C & _)|[(u & C & _)|[(C & -> & -> & -> & M)|[(u & C & _)|(u & C & _)]]]]; try discriminate C. injection C as <-.
    inversion ST; subst; [|repeat split; lia]. cbn [lower]. destruct (Z.ltb_spec max (count a)); repeat split; lia.
  - exfalso. destruct O as [[(C & _)|(C & _)] _]; discriminate C.
  - exfalso. destruct O as [C _]. discriminate C.
  - exfalso. destruct O as [m C]. discriminate C.
Qed.
(** The step in which tryWait returns takes one permit and answers true, or takes none *)
Theorem C84_tryWait_takes_one i p c' s' r : thread_at a i TryWait p -> tstep (count a) (sema a) p c' s' (Done r) ->
  s' = sema a /\ c' = count a - r /\ (r = 0 \/ r = 1 /\ 0 < count a).
Proof.
  intros E ST. destruct (reach_inv permits n a P0 N R BD) as [OK _ _ _ _ _ _]. pose proof (OK _ (nth_error_In _ _ E)) as O. cbn [fst snd] in O.
  destruct p; cbn [pc_ok] in O; try (exfalso; inversion ST; fail).
  all: try (exfalso; destruct O as [(C & _)|(C & _)]; discriminate C).
  - destruct O as [(C & -> & -> & -> & ->)|[(u & C & _)|[(C & _)|[(u & C & _)|(u & C & _)]]]]; try discriminate C.
    inversion ST; subst; cbn [lower]; repeat split; lia.
  - exfalso. destruct O as [[(C & _)|(C & _)] _]; discriminate C.
  - exfalso. destruct O as [C _]. discriminate C.
  - exfalso. destruct O as [m C]. discriminate C.
Qed.
End Any.
Print Assumptions C84_tryWaitMany_takes_all.
Print Assumptions C84_tryWait_takes_one.

(** three permits, two wanted: two are taken, one stays *)
Example C84_takes_all_case : exists p, reach 3 1 (mkSys 3 0 [(TryWaitMany 2, p)] 0 0) /\ tstep 3 0 p 1 0 (Done 2).
Proof.
  exists (Cas Many 2 0 None 3). split.
  - eapply r_step; [eapply r_call; [apply r_init|]|].
    + apply (s_call 3 0 [(Nothing, Done 0)] 0 0 O Nothing 0 (TryWaitMany 2)); [reflexivity|cbn; lia].
    + apply (s_run 3 0 [(TryWaitMany 2, Load Many 2 0 None)] 0 0 O (TryWaitMany 2) (Load Many 2 0 None) 3 0 (Cas Many 2 0 None 3)); [reflexivity|constructor].
  - apply (t_cas 0 Many 2 0 None 3). lia.
Qed.
