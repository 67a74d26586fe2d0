(** C28 scope of stubs, mocks and DNS entries. *)
From Coq Require Import List NArith Bool Arith.
From Verif Require Import ScopeModel ScopeSpec ScopeProofs ScopeProofs2.
Import ListNotations.
Local Open Scope N_scope.

(** Whenever the runner does anything but run a case's own code (in particular when the next case, suite or round
    begins), nothing installed by the code of any case is in force. *)
Theorem C28_gone : forall code suites rounds e x, boundary e -> reaches code suites rounds e x -> no_case_items x.
Proof. exact case_items_gone. Qed.
Print Assumptions C28_gone.

(** Nor at the end of the run. *)
Theorem C28_gone_end : forall code suites rounds, no_case_items (exec code sc0 (main_events suites rounds)).
Proof. exact case_items_gone_end. Qed.
Print Assumptions C28_gone_end.

(** When a body starts, of all the code belonging to cases only its own setup has anything in force. *)
Theorem C28_body : forall code suites rounds n s c x, reaches code suites rounds (EUser (PBody n s c)) x -> mine n s c x.
Proof. exact body_meets. Qed.
Print Assumptions C28_body.

(** What is in force when the first round starts (installed by global setup code or while the cases were collected) stays
    in force in all rounds, whatever suites and cases install, UNSTUB or clean up. *)
Theorem C28_global : forall code suites rounds before after l, main_events suites rounds = early suites ++ before ++ after ->
  ~ In (EUser PGlobalCleanup) before -> ~ In EClearRunner before -> In l (lives (exec code sc0 (early suites))) -> In l (lives (exec code sc0 (early suites ++ before))).
Proof. exact global_kept. Qed.
Print Assumptions C28_global.
(** At the end of the run no stub and no mock of these is left. *)
Theorem C28_global_end : forall code suites rounds l, In l (lives (exec code sc0 (main_events suites rounds))) -> glob (l_origin l) -> i_kind (l_item l) = KDns.
Proof. exact global_end. Qed.
Print Assumptions C28_global_end.
(** What the global suite setup installs for the first suite of the run is in force in all cases of this suite … *)
Theorem C28_first_suite : forall code suites s cs before after, flat_map (case_events 0 s) cs = before ++ after ->
  forall l, In l (lives (exec code sc0 (early suites ++ [ESuite s; EUser (PSuiteSetup 0 s)]))) -> l_origin l = PSuiteSetup 0 s -> In l (lives (exec code sc0 (early suites ++ [ESuite s; EUser (PSuiteSetup 0 s)] ++ before))).
Proof. exact first_suite_kept. Qed.
Print Assumptions C28_first_suite.
(** … and, stubs and mocks, never again once this suite has been cleaned up. *)
Theorem C28_first_suite_gone : forall code suites s cs later, ~ In (EUser (PSuiteSetup 0 s)) later ->
  forall l, In l (lives (exec code sc0 (early suites ++ ESuite s :: EUser (PSuiteSetup 0 s) :: flat_map (case_events 0 s) cs ++ EClearSuite s :: later))) -> l_origin l = PSuiteSetup 0 s -> i_kind (l_item l) = KDns.
Proof. exact first_suite_gone. Qed.
Print Assumptions C28_first_suite_gone.
(** After UNSTUB of a function none of the case's own stubs of it is in force unless it is stubbed again. *)
Theorem C28_unstub : forall code suites rounds n s c x f pre post, reaches code suites rounds (EUser (PBody n s c)) x -> code (PBody n s c) = pre ++ Unstub f :: post -> ~ In (Make (mkitem KStub f)) post ->
  forall l, In l (lives (step code x (EUser (PBody n s c)))) -> l_origin l = PBody n s c -> l_item l <> mkitem KStub f.
Proof. exact body_unstub. Qed.
Print Assumptions C28_unstub.

(** *** concrete cases *)
Definition ex_rounds : list (list (N * list (N * bool))) := [[(1, [(11, true); (12, false)]); (2, [(21, true); (22, true)])]; [(2, [(22, true); (21, true)]); (1, [(11, true)])]].
Definition ex_code (p : place) : list action :=
  match p with
  | PBody n s c => [Make (mkitem KStub (100 + c)); Make (mkitem KMock c); Make (mkitem KDns c); Make (mkitem KStub 5); Unstub 5]
  | PCaseSetup _ _ c => [Make (mkitem KStub (200 + c))]
  | _ => []
  end.
Example C28_case : lives (exec ex_code sc0 (main_events [1; 2] ex_rounds)) = []
  /\ length (lives (exec ex_code sc0 (firstn 14 (main_events [1; 2] ex_rounds)))) = 4%nat
  /\ nth_error (main_events [1; 2] ex_rounds) 14 = Some (EClearCase 11)
  /\ lives (exec ex_code sc0 (firstn 15 (main_events [1; 2] ex_rounds))) = [].
Proof. vm_compute. auto. Qed.

(** a stub of function 5 from global setup survives the UNSTUB in the bodies; suite 1's stub is gone at its cleanup *)
Definition ex_code2 (p : place) : list action :=
  match p with PGlobalSetup => [Make (mkitem KStub 5)] | PSuiteSetup 0 1 => [Make (mkitem KMock 7)] | _ => ex_code p end.
Example C28_case2 : main_events [1; 2] ex_rounds = early [1; 2] ++ firstn 5 (skipn 9 (main_events [1; 2] ex_rounds)) ++ skipn 14 (main_events [1; 2] ex_rounds)
  /\ In (mklive (mkitem KStub 5) ORunner PGlobalSetup) (lives (exec ex_code2 sc0 (early [1; 2])))
  /\ lives (exec ex_code2 sc0 (firstn 15 (main_events [1; 2] ex_rounds))) = [mklive (mkitem KMock 7) (OSuite 1) (PSuiteSetup 0 1); mklive (mkitem KStub 5) ORunner PGlobalSetup]
  /\ lives (exec ex_code2 sc0 (early [1; 2] ++ removelast (suite_events 0 (1, [(11, true); (12, false)])))) = [mklive (mkitem KStub 5) ORunner PGlobalSetup]
  /\ lives (exec ex_code2 sc0 (main_events [1; 2] ex_rounds)) = [].
Proof. vm_compute. auto 10. Qed.

(** Code of the global suite setup of a later suite is taken for the previous case: in force to the end of the run,
    though its suite has been cleaned up. *)
Theorem C28_suite_setup_refuted : exists code suites rounds l, In l (lives (exec code sc0 (main_events suites rounds))) /\
  l_origin l = PSuiteSetup 0 2 /\ l_owner l = OCase 11 /\ i_kind (l_item l) = KStub.
Proof.
  exists (fun p => match p with PSuiteSetup O s => [Make (mkitem KStub s)] | _ => [] end), [1; 2], [[(1, [(11, true)]); (2, [(21, true)])]], (mklive (mkitem KStub 2) (OCase 11) (PSuiteSetup 0 2)).
  vm_compute. auto.
Qed.
Print Assumptions C28_suite_setup_refuted.
(** What global case cleanup code installs is in force in the next case. *)
Theorem C28_case_cleanup_refuted : exists code suites rounds x l, reaches code suites rounds (EUser (PBody 0 1 12)) x /\ In l (lives x) /\ l_origin l = PCaseCleanup 0 1 11.
Proof.
  exists (fun p => match p with PCaseCleanup _ _ c => [Make (mkitem KMock c)] | _ => [] end), [1], [[(1, [(11, true); (12, true)])]].
  exists (exec (fun p => match p with PCaseCleanup _ _ c => [Make (mkitem KMock c)] | _ => [] end) sc0 (firstn 14 (main_events [1] [[(1, [(11, true); (12, true)])]]))).
  exists (mklive (mkitem KMock 11) (OCase 11) (PCaseCleanup 0 1 11)). split; [|vm_compute; auto].
  exists (firstn 14 (main_events [1] [[(1, [(11, true); (12, true)])]])), (skipn 15 (main_events [1] [[(1, [(11, true); (12, true)])]])). split; reflexivity.
Qed.
Print Assumptions C28_case_cleanup_refuted.
