(** C57 verdict of a case, C59 the Warning prefix. *)
From Coq Require Import List NArith Bool Arith.
From Verif Require Import CaseModel CaseSpec CaseProofs.
Import ListNotations.
Local Open Scope N_scope.

(** A case that ends is counted as failed exactly when some real failure was raised while it ran, whoever raised it. *)
Theorem C57_verdict : forall fuel o p st, run_case fuel o p = Finished st -> soft_block (p_pre p) -> (failed st = true <-> real_failure (log st)).
Proof. exact case_verdict. Qed.
Print Assumptions C57_verdict.

(** Likewise for warnings. *)
Theorem C57_warning : forall fuel o p st, run_case fuel o p = Finished st -> quiet_block (p_pre p) -> (warning st = true <-> some_warning (log st)).
Proof. exact case_warning. Qed.
Print Assumptions C57_warning.

(** Course of a case: setup, then the body up to and including its first real failure (all of it when asked to go on),
    then the cleanup whether the body failed or not, then the checks of mocks and leaks. *)
Theorem C57_course : forall fuel o p, (1 <= fuel)%nat ->
  safe_block o (p_pre p) -> b_throws (p_pre p) = false -> safe_block o (p_setup p) -> b_throws (p_setup p) = false ->
  b_throws (p_body p 0) = false -> safe_block o (p_cleanup p 0) -> b_throws (p_cleanup p 0) = false -> safe_block o (p_post p) -> b_throws (p_post p) = false ->
  exists st body' whole, run_case fuel o p = Finished st /\ stops o (b_stmts (p_body p 0)) body' whole /\
    log st = Enter BPre :: map ev_of (b_stmts (p_pre p)) ++ Enter BSetup :: map ev_of (b_stmts (p_setup p)) ++ Enter BBody :: map ev_of body' ++
             (if p_has_cleanup p then Enter BCleanup :: map ev_of (b_stmts (p_cleanup p 0)) else []) ++
             opt_ev (p_mocks p) false ++ opt_ev (p_leak p) false ++ Enter BPost :: map ev_of (b_stmts (p_post p)).
Proof. exact case_course. Qed.
Print Assumptions C57_course.

(** An exception that leaves the setup or the body of a case in a suite without Cleanup is raised as a failure. *)
Theorem C57_exception : forall fuel o p st, run_case fuel o p = Finished st -> p_has_cleanup p = false -> safe_block o (p_setup p) -> safe_block o (p_body p 0) ->
  b_throws (p_setup p) = true \/ b_throws (p_body p 0) = true -> In (Raised (p_exception p) (o_uncaught_warning o)) (log st).
Proof. exact case_exception. Qed.
Print Assumptions C57_exception.

(** So is an exception that leaves the Cleanup block. *)
Theorem C57_exception_in_cleanup : forall fuel o p st, run_case fuel o p = Finished st -> p_has_cleanup p = true -> safe_block o (p_setup p) -> b_throws (p_setup p) = false -> b_throws (p_body p 0) = false ->
  safe_block o (p_cleanup p 0) -> b_throws (p_cleanup p 0) = true -> In (Raised (p_exception p) (o_uncaught_warning o)) (log st).
Proof. exact case_exception_in_cleanup. Qed.
Print Assumptions C57_exception_in_cleanup.

(** When asked to go on after failures, the report holds all failures in the order in which they were raised. *)
Theorem C57_report : forall fuel o p st, run_case fuel o p = Finished st -> o_continue o = true -> fails st = raised (log st).
Proof. exact case_fails. Qed.
Print Assumptions C57_report.

(** *** concrete cases *)
Definition quiet : block := mkblock [] false.
Definition ex_p (thr : bool) (cl : bool) : program :=
  mkprogram (mkblock [Do 1] false) (mkblock [Do 2] false) (fun _ => mkblock [Do 3; Raise 10 true; Do 4; Raise 11 false; Do 5; Raise 12 false] thr)
            (fun _ => mkblock [Do 6] false) (mkblock [Do 7] false) cl (Some 20) None 99.
Example C57_case_stop : run_case 1 (mkopts false false) (ex_p false true) =
  Finished (mkcs true true [(10, true); (11, false)]
    [Enter BPre; Did 1; Enter BSetup; Did 2; Enter BBody; Did 3; Raised 10 true; Did 4; Raised 11 false; Enter BCleanup; Did 6; Raised 20 false; Enter BPost; Did 7]).
Proof. reflexivity. Qed.
Example C57_case_go_on : run_case 1 (mkopts true false) (ex_p true false) =
  Finished (mkcs true true [(10, true); (11, false); (12, false); (99, false); (20, false)]
    [Enter BPre; Did 1; Enter BSetup; Did 2; Enter BBody; Did 3; Raised 10 true; Did 4; Raised 11 false; Did 5; Raised 12 false; Raised 99 false; Raised 20 false; Enter BPost; Did 7]).
Proof. reflexivity. Qed.
Example C57_case_hyp : soft_block (p_pre (ex_p true true)) /\ quiet_block (p_pre (ex_p true true)) /\ safe_block (mkopts true false) (p_body (ex_p true true) 0).
Proof. split; [intros s [<-|[]]; cbn; auto|]. split; [intros i w [H|[]]; discriminate|left; auto]. Qed.

Example C57_case_cleanup_throws : exists st, run_case 1 (mkopts false true) (mkprogram quiet quiet (fun _ => mkblock [Do 1; Raise 2 false; Do 3] false) (fun _ => mkblock [Do 4] true) quiet true None None 99) = Finished st
  /\ log st = [Enter BPre; Enter BSetup; Enter BBody; Did 1; Raised 2 false; Enter BCleanup; Did 4; Raised 99 true; Enter BPost].
Proof. eexists. split; reflexivity. Qed.

(** A real failure in global case setup code is forgotten when the case starts. *)
Theorem C57_global_setup_refuted : exists fuel o p st, run_case fuel o p = Finished st /\ real_failure (log st) /\ failed st = false /\ fails st <> [].
Proof.
  exists 1%nat, (mkopts true false), (mkprogram (mkblock [Raise 1 false] false) quiet (fun _ => quiet) (fun _ => quiet) quiet false None None 0), (mkcs false false [(1, false)] [Enter BPre; Raised 1 false; Enter BSetup; Enter BBody; Enter BPost]).
  split; [reflexivity|]. split; [exists 1; cbn; auto|]. split; [auto|discriminate].
Qed.
Print Assumptions C57_global_setup_refuted.
(** In a suite with Cleanup a body that throws is started again, for ever if it always throws, and passes when it does not
    throw the second time. *)
Theorem C57_exception_cleanup_refuted : (exists o p, p_has_cleanup p = true /\ forall fuel, run_case fuel o p = OutOfFuel) /\
  (exists fuel o p st, p_has_cleanup p = true /\ b_throws (p_body p 0) = true /\ run_case fuel o p = Finished st /\ failed st = false /\ fails st = []).
Proof.
  split.
  - exists (mkopts false false), (mkprogram quiet quiet (fun _ => mkblock [] true) (fun _ => quiet) quiet true None None 0). split; auto.
    assert (S : safe_block (mkopts false false) (mkblock [] true)) by (right; intros s []). assert (S' : safe_block (mkopts false false) quiet) by (right; intros s []).
    apply case_exception_loop; cbn; auto.
  - exists 2%nat, (mkopts false false), (mkprogram quiet quiet (fun k => mkblock [] (Nat.eqb k 0)) (fun _ => quiet) quiet true None None 0).
    eexists. split; [auto|]. split; [auto|]. split; [reflexivity|]. auto.
Qed.
Print Assumptions C57_exception_cleanup_refuted.
(** A Cleanup block that fails is executed again, for ever if it always fails. *)
Theorem C57_cleanup_fails_refuted : exists o p, b_throws (p_body p 0) = false /\ forall fuel, run_case fuel o p = OutOfFuel.
Proof.
  exists (mkopts false false), (mkprogram quiet quiet (fun _ => quiet) (fun _ => mkblock [Raise 1 false] false) quiet true None None 0). split; auto.
  assert (S' : safe_block (mkopts false false) quiet) by (right; intros s []).
  apply case_cleanup_loop; cbn; auto. intros _. exists (Raise 1 false). cbn. auto.
Qed.
Print Assumptions C57_cleanup_fails_refuted.
(** A failure in the setup of a case has nowhere to jump to. *)
Theorem C57_setup_fails_refuted : exists o p, forall fuel, run_case fuel o p = Stale.
Proof. exists (mkopts false false), (mkprogram quiet (mkblock [Raise 1 false] false) (fun _ => quiet) (fun _ => quiet) quiet false None None 0). intros; reflexivity. Qed.
Print Assumptions C57_setup_fails_refuted.

(** The Warning prefix makes exactly the failures of the assertions it is written before into warnings, provided it is
    written before assertions only and these do not throw. *)
Theorem C59_warning_prefix : forall l, Forall wclean l -> wrun false l = (false, map wexpect l).
Proof. exact wrun_clean. Qed.
Print Assumptions C59_warning_prefix.
Example C59_case : wrun false [WAssert true true false; WAssert false true false; WOther false; WAssert true false false; WAssert true true false] = (false, [WWarn; WFail; WRun; WPass; WWarn])
  /\ Forall wclean [WAssert true true false; WAssert false true false; WOther false; WAssert true false false; WAssert true true false].
Proof. split; [reflexivity|]. repeat constructor. Qed.
(** A prefixed assertion that throws turns the next real failure into a warning. *)
Theorem C59_throw_refuted : exists l, map wexpect l = [WThrow; WFail] /\ snd (wrun false l) = [WThrow; WWarn].
Proof. exists [WAssert true true true; WAssert false true false]. auto. Qed.
Print Assumptions C59_throw_refuted.
(** In general: once the prefix has been written before an assertion that throws or before something that is no assertion,
    all further prefixed statements are not executed, up to the next plain assertion, whose failure is but a warning. *)
Theorem C59_leftover : forall s mid f rest, wleaves s -> Forall widle mid -> Forall wclean rest ->
  wrun false (s :: mid ++ WAssert false f false :: rest) = (false, wexpect s :: map wskipped mid ++ (if f then WWarn else WPass) :: map wexpect rest).
Proof. exact wrun_leftover. Qed.
Print Assumptions C59_leftover.
Example C59_leftover_case : wrun false (WOther true :: [WAssert true true false; WOther false; WAssert true false false] ++ WAssert false true false :: [WAssert false true false]) = (false, [WRun; WSkip; WRun; WSkip; WWarn; WFail])
  /\ wleaves (WOther true) /\ Forall widle [WAssert true true false; WOther false; WAssert true false false] /\ Forall wclean [WAssert false true false].
Proof. split; [reflexivity|]. repeat (split || constructor); cbn; auto. Qed.
