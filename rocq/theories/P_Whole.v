(** C90: the course of a whole run. *)
From Coq Require Import List ZArith NArith Bool Arith.
From Verif Require Import RunnerModel RunnerSpec WholeModel WholeSpec WholeProofs WholeProofs2.
Import ListNotations.
Local Open Scope N_scope.

Definition two (a : N) : list N := [a; a + 1].
Definition small : program := mkprogram (fun h => match h with GlobalSetup => two 10 | GlobalCleanup => two 12 | SuiteSetup => two 14 | SuiteCleanup => two 16 | CaseSetup => two 18 | CaseCleanup => two 20 end) [90] [1; 2] 91 92 93 true.
Definition once (lists : bool) : opts := mkopts 1 0 false lists true.
Definition good (n : nat) (c : N) : bool * bool := (false, false).
Definition plan (n : nat) : list (N * list case_) := [(2, [mkcase 7 false false false; mkcase 8 true false false]); (1, [mkcase 9 false false false])].

(** the run is that of the runner properties (P_Runner.v), and no array is read beyond its end *)
Theorem C90_run : forall p o body order, exists t, whole p o body order = Some (fst (run o body (fun n => map snd (order n))), t).
Proof. exact same_run. Qed.
Print Assumptions C90_run.
Example C90_run_example : exists r t, whole small (once false) good plan = Some (r, t) /\ bodies t = [(0%nat, 7); (0%nat, 9)] /\ passed (r_stats r) = 2%Z.
Proof. eexists. eexists. split; [vm_compute; reflexivity|]. split; [vm_compute; reflexivity|vm_compute; reflexivity]. Qed.
(** of the reports there should be, the first seven hear the whole story, each piece of it once and in order; further ones hear nothing *)
Theorem C90_told : forall p o body order r t x, whole p o body order = Some (r, t) -> NoDup (wanted p o) -> In x (firstn 7 (wanted p o)) -> heard x t = story (turns o order).
Proof. exact told. Qed.
Print Assumptions C90_told.
Example C90_told_example : NoDup (wanted small (once false)) /\ In 93 (firstn 7 (wanted small (once false))) /\ exists r t, whole small (once false) good plan = Some (r, t) /\
  heard 93 t = [RunnerStart; SuiteStart 2; CaseStart 2 7; CaseEnd 2 7; CaseStart 2 8; CaseEnd 2 8; SuiteEnd 2; SuiteStart 1; CaseStart 1 9; CaseEnd 1 9; SuiteEnd 1; RunnerEnd].
Proof.
  split; [vm_compute; repeat (constructor; [cbn [In]; intros H; repeat destruct H as [H|H]; try discriminate; contradiction|]); constructor|]. split; [vm_compute; tauto|].
  eexists. eexists. split; [vm_compute; reflexivity|vm_compute; reflexivity].
Qed.
Theorem C90_others : forall p o body order r t x, whole p o body order = Some (r, t) -> ~ In x (firstn 7 (wanted p o)) -> heard x t = [].
Proof. exact not_told. Qed.
Print Assumptions C90_others.
Example C90_others_example : ~ In 91 (firstn 7 (wanted small (once false))) /\ exists r t, whole small (once false) good plan = Some (r, t) /\ heard 91 t = [].
Proof. split; [vm_compute; intuition discriminate|]. eexists. eexists. split; [vm_compute; reflexivity|vm_compute; reflexivity]. Qed.
(** the bodies that run are those of the executed cases, in order *)
Theorem C90_bodies : forall p o body order r t, whole p o body order = Some (r, t) -> bodies t = executed (rev (r_log r)).
Proof. exact bodies_ok. Qed.
Print Assumptions C90_bodies.
Example C90_bodies_example : exists r t, whole small (once true) good plan = Some (r, t) /\ bodies t = [] /\ heard 91 t <> [].
Proof. eexists. eexists. split; [vm_compute; reflexivity|]. split; [vm_compute; reflexivity|vm_compute; discriminate]. Qed.
(** right before a body all setups of cases are called in the order of registration, right before them the reports are told that the case starts; right after it all cleanups of cases, then the reports are told its end; and the suite opened last and not closed is that of the case *)
Theorem C90_around : forall p o body order r t pre n c post, whole p o body order = Some (r, t) -> t = pre ++ Body n c :: post -> exists s pre' post' q,
  pre = pre' ++ map (fun x => Tell x (CaseStart s c)) (firstn 7 (wanted p o)) ++ map (Call CaseSetup) (firstn 1023 (p_hooks p CaseSetup)) /\
  post = map (Call CaseCleanup) (firstn 1023 (p_hooks p CaseCleanup)) ++ map (fun x => Tell x (CaseEnd s c)) (firstn 7 (wanted p o)) ++ post' /\
  filter of_suite pre = q ++ [Open s].
Proof. exact around. Qed.
Print Assumptions C90_around.
Example C90_around_example : exists r pre post, whole small (once false) good plan = Some (r, pre ++ Body 0 9 :: post) /\ skipn (length pre - 5) pre = [Tell 90 (CaseStart 1 9); Tell 92 (CaseStart 1 9); Tell 93 (CaseStart 1 9); Call CaseSetup 18; Call CaseSetup 19] /\ firstn 3 post = [Call CaseCleanup 20; Call CaseCleanup 21; Tell 90 (CaseEnd 1 9)].
Proof.
  pose (w := whole small (once false) good plan). assert (E : w = w) by reflexivity. unfold w at 2 in E. vm_compute in w.
  match eval unfold w in w with Some (?r, ?t) => let rec cut a b := match b with Body 0 9 :: ?q => constr:((a, q)) | ?e :: ?q => let a' := constr:(a ++ [e]) in cut a' q end in
    match cut (@nil event) t with (?a, ?q) => exists r, a, q end end.
  split; [vm_compute; reflexivity|]. split; [vm_compute; reflexivity|vm_compute; reflexivity].
Qed.
(** a suite: its setups, it is opened, its cases, it is closed, its cleanups; before and after the reports are told; the same was done, without telling, when the cases were collected, before the reports heard anything *)
Theorem C90_suites : forall p o body order r t, whole p o body order = Some (r, t) ->
  let setups := map (Call SuiteSetup) (firstn 1023 (p_hooks p SuiteSetup)) in let cleanups := map (Call SuiteCleanup) (firstn 1023 (p_hooks p SuiteCleanup)) in
  filter of_suite t = flat_map (fun s => setups ++ [Open s; Enumerate s; Close s] ++ cleanups) (p_suites p) ++ flat_map (fun s => setups ++ [Open (fst s); Close (fst s)] ++ cleanups) (turns o order).
Proof. exact suites_ok. Qed.
Print Assumptions C90_suites.
Example C90_suites_example : exists r t, whole small (once false) good plan = Some (r, t) /\ firstn 9 (filter of_suite t) = [Call SuiteSetup 14; Call SuiteSetup 15; Open 1; Enumerate 1; Close 1; Call SuiteCleanup 16; Call SuiteCleanup 17; Call SuiteSetup 14; Call SuiteSetup 15].
Proof. eexists. eexists. split; [vm_compute; reflexivity|vm_compute; reflexivity]. Qed.
Theorem C90_opened : forall p o body order r t pre s post, whole p o body order = Some (r, t) -> t = pre ++ Open s :: post ->
  let setups := map (Call SuiteSetup) (firstn 1023 (p_hooks p SuiteSetup)) in let cleanups := map (Call SuiteCleanup) (firstn 1023 (p_hooks p SuiteCleanup)) in
  (exists pre' post', pre = pre' ++ setups /\ post = [Enumerate s; Close s] ++ cleanups ++ post' /\ (forall x, heard x pre' = []) /\ bodies pre' = []) \/
  (exists pre' post' post'', pre = pre' ++ map (fun x => Tell x (SuiteStart s)) (firstn 7 (wanted p o)) ++ setups /\
     post = post' ++ Close s :: cleanups ++ map (fun x => Tell x (SuiteEnd s)) (firstn 7 (wanted p o)) ++ post'' /\ filter of_suite post' = []).
Proof. exact opened. Qed.
Print Assumptions C90_opened.
Example C90_opened_example : exists r t, whole small (once false) good plan = Some (r, t) /\ length (filter (fun e => match e with Open _ => true | _ => false end) t) = 4%nat.
Proof. eexists. eexists. split; [vm_compute; reflexivity|vm_compute; reflexivity]. Qed.
(** the global setups are called before everything else, in the order of registration, the global cleanups after everything else *)
Theorem C90_global : forall p o body order r t, whole p o body order = Some (r, t) -> exists mid,
  t = map (Call GlobalSetup) (firstn 1023 (p_hooks p GlobalSetup)) ++ mid ++ map (Call GlobalCleanup) (firstn 1023 (p_hooks p GlobalCleanup)) /\ filter of_run mid = [].
Proof. exact global_ok. Qed.
Print Assumptions C90_global.
Example C90_global_example : exists r t, whole small (once false) good plan = Some (r, t) /\ firstn 3 t = [Call GlobalSetup 10; Call GlobalSetup 11; Call SuiteSetup 14] /\ firstn 3 (rev t) = [Call GlobalCleanup 13; Call GlobalCleanup 12; Tell 93 RunnerEnd].
Proof. eexists. eexists. split; [vm_compute; reflexivity|]. split; [vm_compute; reflexivity|vm_compute; reflexivity]. Qed.
(** how often a hook is called: global ones once, those of suites once for each suite collected and once for each suite of each round, those of cases once for each body that runs *)
Theorem C90_counts : forall p o body order r t f, whole p o body order = Some (r, t) ->
  let times h := count_occ N.eq_dec (firstn 1023 (p_hooks p h)) f in let steps := (length (p_suites p) + length (turns o order))%nat in let bodies := length (executed (r_log r)) in
  called GlobalSetup f t = times GlobalSetup /\ called GlobalCleanup f t = times GlobalCleanup /\ called SuiteSetup f t = (steps * times SuiteSetup)%nat /\ called SuiteCleanup f t = (steps * times SuiteCleanup)%nat /\
  called CaseSetup f t = (bodies * times CaseSetup)%nat /\ called CaseCleanup f t = (bodies * times CaseCleanup)%nat.
Proof. exact counts_ok. Qed.
Print Assumptions C90_counts.
Example C90_counts_example : exists r t, whole small (once false) good plan = Some (r, t) /\ called GlobalSetup 10 t = 1%nat /\ called SuiteCleanup 17 t = 4%nat /\ called CaseSetup 18 t = 2%nat.
Proof. eexists. eexists. split; [vm_compute; reflexivity|]. split; [vm_compute; reflexivity|]. split; [vm_compute; reflexivity|vm_compute; reflexivity]. Qed.
(** with seven reports of its own, the program's console report is left out: nothing is written *)
Theorem C90_reports_refuted : exists p r t, NoDup (wanted p (once false)) /\ whole p (once false) good plan = Some (r, t) /\ In (p_console p) (wanted p (once false)) /\ heard (p_console p) t = [].
Proof.
  exists (mkprogram (fun _ => []) [1; 2; 3; 4; 5; 6; 7] [1; 2] 91 92 93 false). eexists. eexists. split; [vm_compute; repeat (constructor; [cbn [In]; intros H; repeat destruct H as [H|H]; try discriminate; contradiction|]); constructor|].
  split; [vm_compute; reflexivity|]. split; [vm_compute; tauto|vm_compute; reflexivity].
Qed.
Print Assumptions C90_reports_refuted.
(** a setup of suites is called also if no case is to run: when only a list is wanted *)
Theorem C90_list_refuted : exists p r t, whole p (once true) good plan = Some (r, t) /\ bodies t = [] /\ called SuiteSetup 14 t = 4%nat.
Proof. exists small. eexists. eexists. split; [vm_compute; reflexivity|]. split; [vm_compute; reflexivity|vm_compute; reflexivity]. Qed.
Print Assumptions C90_list_refuted.
(** cleanups are not called in the reverse order of registration *)
Theorem C90_reverse_refuted : exists r pre, whole small (once false) good plan = Some (r, pre ++ [Call GlobalCleanup 12; Call GlobalCleanup 13]) /\ p_hooks small GlobalCleanup = [12; 13].
Proof.
  destruct (whole small (once false) good plan) as [[r t]|] eqn:E; [|vm_compute in E; discriminate]. exists r, (firstn (length t - 2) t).
  vm_compute in E. injection E as <- <-. split; [vm_compute; reflexivity|reflexivity].
Qed.
Print Assumptions C90_reverse_refuted.
(** the hook registered after 1023 others of its kind is never called *)
Theorem C90_many_refuted : exists p f, In f (p_hooks p GlobalSetup) /\ forall o body order r t, whole p o body order = Some (r, t) -> called GlobalSetup f t = 0%nat.
Proof.
  exists (mkprogram (fun h => match h with GlobalSetup => repeat 1 1023 ++ [2] | _ => [] end) [] [] 91 92 93 false), 2. split; [cbn [p_hooks]; apply in_or_app; right; left; reflexivity|].
  intros o body order r t W. destruct (C90_counts _ _ _ _ _ _ 2 W) as [H _]. rewrite H. vm_compute. reflexivity.
Qed.
Print Assumptions C90_many_refuted.
