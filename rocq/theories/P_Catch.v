(** C82: Catch. *)
From Coq Require Import List NArith Bool.
From Verif Require Import CatchModel CatchSpec CatchProofs.
Import ListNotations.
Local Open Scope N_scope.

(** Cases whose Catch bodies are orderly are run as C++ exceptions would have it: everything observed is what the ideal run allows, and conversely. *)
Theorem C82_ideal : forall c cs, Forall (fun b => forallb (orderly c false) b = true) cs ->
  forall es, run_cases c cs start = Some es <-> ideals c cs es.
Proof. exact cases_exactly. Qed.
Print Assumptions C82_ideal.

(** ... and never jump to a Catch that has been left. *)
Theorem C82_defined : forall c cs, Forall (fun b => forallb (orderly c false) b = true) cs -> exists es, run_cases c cs start = Some es.
Proof. exact cases_defined. Qed.
Print Assumptions C82_defined.

(** A Catch with an orderly body passes exactly when nothing was thrown and nothing is expected, or an exception of exactly the expected type
    and with an accepted value was thrown; otherwise it fails for the reason that holds. *)
Theorem C82_verdict : forall c e b x th ev r, forallb (orderly c true) b = true -> ideal c b x ev -> threw x th ->
  (accepted e th -> exists ev2, snd (run_code c (CCatch e b :: r) start) = ev ++ Verdict None :: ev2) /\
  (~ accepted e th -> exists w ev2, because e th w /\ snd (run_code c (CCatch e b :: r) start) = ev ++ Verdict (Some w) :: ev2).
Proof. exact catch_verdict. Qed.
Print Assumptions C82_verdict.

(** A check that fails within Catch leaves the interception on: an exception thrown and caught by a later case jumps into the Catch that was left.
    A return out of it does the same. *)
Theorem C82_left_refuted : exists c b1 b2 es, ideals c [b1; b2] es /\ run_cases c [b1; b2] start = None /\ forallb (orderly c false) b2 = true.
Proof.
  exists false, [CCatch ENothrow [CFail]], [CTry [CThrow 1 1]; CSay 5], [[CheckFailed]; [Said 5]]. split; [|split; reflexivity].
  eapply ids_other; [apply id_catch_out; [apply id_fail; reflexivity | auto] | intros t v; discriminate |].
  apply (ids_other _ _ _ IEnd); [|intros t v; discriminate|constructor]. apply (id_try_throw false [CThrow 1 1] [CSay 5] 1 1 [] IEnd [Said 5]); repeat constructor.
Qed.
Print Assumptions C82_left_refuted.

Theorem C82_return_refuted : exists c b1 b2 es, ideals c [b1; b2] es /\ run_cases c [b1; b2] start = None /\ forallb (orderly c false) b2 = true.
Proof.
  exists false, [CCatch ENothrow [CReturn]], [CTry [CThrow 1 1]; CSay 5], [[]; [Said 5]]. split; [|split; reflexivity].
  eapply ids_other; [apply id_catch_out; [apply id_return | auto] | intros t v; discriminate |].
  apply (ids_other _ _ _ IEnd); [|intros t v; discriminate|constructor]. apply (id_try_throw false [CThrow 1 1] [CSay 5] 1 1 [] IEnd [Said 5]); repeat constructor.
Qed.
Print Assumptions C82_return_refuted.

(** Within Catch the handlers of the code under test are not reached: what it throws and catches itself ends the Catch. *)
Theorem C82_try_refuted : exists c b es es1, ideals c [b] es /\ run_cases c [b] start = Some es1 /\ es = [[Said 5; Verdict None]] /\ es1 = [[Verdict (Some (WThrown 1))]].
Proof.
  exists false, [CCatch ENothrow [CTry [CThrow 1 1]; CSay 5]]. eexists _, _. split; [|split; [reflexivity|split; reflexivity]].
  apply (ids_other _ _ _ IEnd); [|intros t v; discriminate|constructor].
  apply (id_catch_ok false ENothrow [CTry [CThrow 1 1]; CSay 5] [] IEnd None [Said 5] IEnd []); [|constructor|constructor|constructor].
  apply (id_try_throw false [CThrow 1 1] [CSay 5] 1 1 [] IEnd [Said 5]); repeat constructor.
Qed.
Print Assumptions C82_try_refuted.

(** After a Catch within a Catch the outer one no longer catches. *)
Theorem C82_nested_refuted : exists c b es es1, ideals c [b] es /\ run_cases c [b] start = Some es1 /\
  es = [[Verdict None; Verdict None; Said 5]] /\ es1 = [[Verdict None; Uncaught 1]].
Proof.
  exists false, [CCatch (EType 1 (fun _ => true)) [CCatch ENothrow []; CThrow 1 1]; CSay 5]. eexists _, _. split; [|split; [reflexivity|split; reflexivity]].
  apply (ids_other _ _ _ IEnd); [|intros t v; discriminate|constructor].
  apply (id_catch_ok false (EType 1 (fun _ => true)) [CCatch ENothrow []; CThrow 1 1] [CSay 5] (IThrow 1 1) (Some (1, 1)) [Verdict None] IEnd [Said 5]); try (repeat constructor; fail).
  apply (id_catch_ok false ENothrow [] [CThrow 1 1] IEnd None [] (IThrow 1 1) []); repeat constructor.
Qed.
Print Assumptions C82_nested_refuted.

(* examples *)
Definition first := [CSay 1; CCatch (EType 7 (fun v => v =? 3)) [CSay 2; CTry [CSay 3]; CThrow 7 3; CSay 4]; CTry [CThrow 8 0; CSay 5]; CCatch ENothrow [CSay 6]; CCatch (EType 7 (fun _ => true)) [CThrow 8 1]; CSay 7].
Definition second := [CCatch (EType 7 (fun v => v =? 3)) [CThrow 7 4]].
Definition third := [CCatch (EType 7 (fun v => v =? 3)) [CSay 8]].
Definition fourth := [CThrow 9 9; CSay 9].
Example C82_orderly : Forall (fun b => forallb (orderly false false) b = true) [first; second; third; fourth].
Proof. repeat constructor. Qed.
Example C82_run : run_cases false [first; second; third; fourth] start =
  Some [[Said 1; Said 2; Said 3; Verdict None; Said 6; Verdict None; Verdict (Some (WType 8))]; [Verdict (Some (WValue 7))]; [Said 8; Verdict (Some WNothing)]; [Uncaught 9]].
Proof. reflexivity. Qed.
Example C82_run_on : run_cases true [first; [CCatch ENothrow [CFail; CThrow 1 2]; CSay 3]] start =
  Some [[Said 1; Said 2; Said 3; Verdict None; Said 6; Verdict None; Verdict (Some (WType 8)); Said 7]; [CheckFailed; Verdict (Some (WThrown 1)); Said 3]].
Proof. reflexivity. Qed.
Example C82_body : forallb (orderly false true) [CSay 2; CThrow 7 3] = true /\ ideal false [CSay 2; CThrow 7 3] (IThrow 7 3) [Said 2] /\ threw (IThrow 7 3) (Some (7, 3)) /\
  accepted (EType 7 (fun v => v =? 3)) (Some (7, 3)) /\ ~ accepted (EType 8 (fun v => v =? 3)) (Some (7, 3)).
Proof. split; [reflexivity|]. split; [repeat constructor|]. split; [constructor|]. split; [constructor; reflexivity|]. intros H. inversion H. Qed.
