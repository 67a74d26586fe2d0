(** C89: PF. *)
From Coq Require Import List NArith ZArith QArith Bool.
From Verif Require Import Base FailModel MockmsgModel MockmsgSpec TimerModel TimerSpec TimerProofs.
Import ListNotations.
Local Open Scope Z_scope.

(** it fails exactly when more processor time was used than allowed, whatever double rounds; the failure shows both times, whole milliseconds; either way it counts as one assertion *)
Theorem C89_verdict : forall rnd filine ms start now n, rounding rnd -> measurable start now -> limit ms ->
  (exists a b d, n = (a, b, d) /\ fst (timer rnd filine ms start now n) = (a + 1, b + 1, d + 1)) /\
  (snd (timer rnd filine ms start now n) = None <-> now - start <= 1000 * ms) /\
  (now - start > 1000 * ms -> exists t w1 w2, snd (timer rnd filine ms start now n) = Some (Note None t filine []) /\ visible t = str "performance expect < " ++ w1 ++ str " ms, but actually cost " ++ w2 ++ str " ms" /\ writes w1 ms /\ writes w2 ((now - start) / 1000)).
Proof. exact timer_ok. Qed.
Print Assumptions C89_verdict.
Example C89_verdict_example : rounding down /\ measurable 50 7050 /\ limit 7 /\ snd (timer down (str "t.cpp:3") 7 50 7050 (0, 0, 0)) = None /\ snd (timer down (str "t.cpp:3") 7 50 7051 (0, 0, 0)) <> None.
Proof. split; [exact down_rounding|]. split; [split; [discriminate|reflexivity]|]. split; [split; [discriminate|reflexivity]|]. split; [vm_compute; reflexivity|vm_compute; discriminate]. Qed.
(** its block runs once *)
Theorem C89_once : forall fuel, (2 <= fuel)%nat -> times_run fuel 0 = Some 1%nat.
Proof. exact runs_once. Qed.
Print Assumptions C89_once.
Example C89_once_example : times_run 5 0 = Some 1%nat.
Proof. reflexivity. Qed.
(** the message says that less than the limit was expected: exactly the limit is let through, and the time shown may be the limit itself *)
Theorem C89_strict_refuted : exists ms start now, limit ms /\ measurable start now /\ now - start = 1000 * ms /\ snd (timer down [] ms start now (0, 0, 0)) = None.
Proof. exists 5, 0, 5000. split; [split; [discriminate|reflexivity]|]. split; [split; [discriminate|reflexivity]|]. split; [reflexivity|vm_compute; reflexivity]. Qed.
Print Assumptions C89_strict_refuted.
Theorem C89_shown_refuted : exists ms start now t, limit ms /\ measurable start now /\ snd (timer down [] ms start now (0, 0, 0)) = Some (Note None t [] []) /\ visible t = str "performance expect < 5 ms, but actually cost 5 ms".
Proof. exists 5, 0, 5999. eexists. split; [split; [discriminate|reflexivity]|]. split; [split; [discriminate|reflexivity]|]. split; [vm_compute; reflexivity|vm_compute; reflexivity]. Qed.
Print Assumptions C89_shown_refuted.
