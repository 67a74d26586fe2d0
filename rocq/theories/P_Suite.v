(** C84: the cases of a suite, one per value. *)
From Coq Require Import List NArith Bool Arith.
From Verif Require Import SuiteModel SuiteSpec SuiteProofs SuiteProofs2.
Import ListNotations.
Local Open Scope N_scope.

(** A suite registers its cases in the order of its text, those of Cases in the order of the values, without running one of them; code that stands alone runs. *)
Theorem C84_registered : forall fuel w l, distinct l -> exists st, enumerate fuel w l = Done st false /\ made st = map fst (declared l) /\ log st = seen false l.
Proof. exact registered. Qed.
Print Assumptions C84_registered.

(** Without Cleanup: whatever cases are run in whatever order, each test runs the code before the case with Setup, the body once with the values of the case,
    and unless the body threw the code behind it without Setup. *)
Theorem C84_tests : forall fuel w l order, distinct l -> no_cleanup l -> faithful w -> Forall same_types l -> incl order (map fst (declared l)) ->
  exists logs, suite fuel w l order = Some logs /\ length logs = length order /\
    forall j k, nth_error order j = Some k -> exists a i c vs, l = a ++ i :: c /\ In (k, vs) (cases_of i) /\
      nth_error logs j = Some (seen true a ++ [Ran k vs (ending w k j)] ++ match ending w k j with HThrew => [] | _ => seen false c end).
Proof. exact suite_plain. Qed.
Print Assumptions C84_tests.

(** So running all of them runs the body of each case once, with its values. *)
Theorem C84_each_once : forall fuel w l, distinct l -> no_cleanup l -> faithful w -> Forall same_types l ->
  exists logs, suite fuel w l (map fst (declared l)) = Some logs /\ map bodies logs = map (fun p => [p]) (declared l).
Proof. exact each_once. Qed.
Print Assumptions C84_each_once.

(** With Cleanup before the cases, and no Cases: the Cleanup last before them runs once after each body that does not throw, and the code behind it runs a second time. *)
Theorem C84_cleanup : forall fuel w a n b order, distinct (a ++ ICleanup n :: b) -> no_cleanup b -> declared a = [] -> Forall (fun i => match i with ICases _ => False | _ => True end) b ->
  (forall k e, ending w k e <> HThrew) -> incl order (map fst (declared b)) -> (1 <= fuel)%nat ->
  exists logs, suite fuel w (a ++ ICleanup n :: b) order = Some logs /\ length logs = length order /\
    forall j k, nth_error order j = Some k -> exists b1 c, b = b1 ++ ICase k :: c /\
      nth_error logs j = Some (seen true a ++ seen true b1 ++ [Ran k [] (ending w k j); CleanedUp n] ++ seen false b).
Proof. exact suite_cleanup. Qed.
Print Assumptions C84_cleanup.

(** Cases behind a Cleanup never ends: the body is run again after each Cleanup. *)
Theorem C84_endless : forall w a n b ks c k vs, distinct (a ++ ICleanup n :: b ++ ICases ks :: c) -> no_cleanup b -> In (k, vs) ks ->
  forall fuel st t, enumerate fuel w (a ++ ICleanup n :: b ++ ICases ks :: c) = Done st t -> forall fuel' act, test fuel' w act (a ++ ICleanup n :: b ++ ICases ks :: c) k st = OutOfFuel.
Proof. exact cases_endless_suite. Qed.
Print Assumptions C84_endless.

Theorem C84_cases_cleanup_refuted : exists l k, declared l = [(k, [(0, 5)])] /\ (exists st, enumerate 0 quiet l = Done st false /\ forall fuel, test fuel quiet 1 l k st = OutOfFuel).
Proof. exact cleanup_cases. Qed.
Print Assumptions C84_cases_cleanup_refuted.

(** A Cleanup behind a case is jumped to though it was set in a call that has returned. *)
Theorem C84_cleanup_behind_refuted : exists l k fuel st, declared l = [(k, [])] /\ In (ICleanup 1) l /\ enumerate fuel quiet l = Done st false /\ forall fuel', test fuel' quiet 1 l k st = Stale.
Proof. exact cleanup_behind. Qed.
Print Assumptions C84_cleanup_behind_refuted.

(** Values of another type than the first are converted to its type. *)
Theorem C84_types_refuted : exists w l logs, faithful w /\ suite 0 w l (map fst (declared l)) = Some logs /\ map bodies logs <> map (fun p => [p]) (declared l) /\ no_cleanup l /\ distinct l.
Proof. exact other_type. Qed.
Print Assumptions C84_types_refuted.

(** *** cases *)
Definition ex_suite : list item := [IStep 1; ISetup 2; ICase 10; ICases [(11, [(0, 5)]); (12, [(0, 6)]); (13, [(0, 7)])]; IStep 3; ISetup 4; ICases [(14, [(0, 1); (1, 2)]); (15, [(0, 1); (1, 3)])]].
Example C84_case_hyp : distinct ex_suite /\ no_cleanup ex_suite /\ faithful quiet /\ Forall same_types ex_suite.
Proof.
  split; [unfold distinct; cbn; repeat (constructor; [cbn; intuition discriminate|]); constructor|]. split; [reflexivity|]. split; [exact quiet_faithful|].
  repeat constructor; intros p H; cbn in H; intuition; subst p; reflexivity.
Qed.
Example C84_case : suite 0 (mkworld (fun t v => (t, snd v)) (fun k _ => if k =? 13 then HThrew else if k =? 12 then HFailed else HNormal)) ex_suite [15; 12; 13; 10] = Some
  [[Stepped 1; SetUp 2; Stepped 3; SetUp 4; Ran 15 [(0, 1); (1, 3)] HNormal]; [Stepped 1; SetUp 2; Ran 12 [(0, 6)] HFailed; Stepped 3]; [Stepped 1; SetUp 2; Ran 13 [(0, 7)] HThrew];
   [Stepped 1; SetUp 2; Ran 10 [] HNormal; Stepped 3]].
Proof. reflexivity. Qed.
Example C84_case_cleanup : suite 1 quiet [IStep 1; ICleanup 9; ISetup 2; IStep 3; ICase 10; ICase 11; IStep 4] [11; 10] = Some
  [[Stepped 1; SetUp 2; Stepped 3; Ran 11 [] HNormal; CleanedUp 9; Stepped 3; Stepped 4]; [Stepped 1; SetUp 2; Stepped 3; Ran 10 [] HNormal; CleanedUp 9; Stepped 3; Stepped 4]].
Proof. reflexivity. Qed.
