From Coq Require Import List NArith Bool Arith Lia.
From Verif Require Import ScopeModel ScopeSpec ScopeProofs.
Import ListNotations.
Local Open Scope N_scope.

Lemma exec_app : forall code x a b, exec code x (a ++ b) = exec code (exec code x a) b.
Proof. intros. unfold exec. apply fold_left_app. Qed.
Lemma exec_cons : forall code x e b, exec code x (e :: b) = exec code (step code x e) b.
Proof. reflexivity. Qed.

(** *** the pointers *)
Definition moves (e : event) : Prop := match e with ESuite _ | ECase _ => True | _ => False end.
Lemma step_cur : forall code x e, ~ moves e -> cur_case (step code x e) = cur_case x /\ cur_suite (step code x e) = cur_suite x.
Proof. intros code x [] H; cbn in *; try tauto. apply acts_cur. Qed.
Lemma exec_cur : forall code es x, (forall e, In e es -> ~ moves e) -> cur_case (exec code x es) = cur_case x /\ cur_suite (exec code x es) = cur_suite x.
Proof.
  intros code es. induction es as [|e es IH]; intros x H; auto. rewrite exec_cons. destruct (IH (step code x e)) as [-> ->]; [intros; apply H; right; auto|]. apply step_cur. apply H. left. auto.
Qed.
Lemma enum_still : forall suites e, In e (enum_events suites) -> ~ moves e.
Proof. intros suites e I. apply in_flat_map in I. destruct I as (s & _ & I). cbn in I. intuition subst; cbn in *; auto. Qed.

(** *** what is not removed *)
Lemma act_keep : forall p x a l, In l (lives x) -> l_owner l <> owner_of x KStub -> In l (lives (act p x a)).
Proof.
  intros p x [i|f] l I O; cbn; auto. apply filter_In. split; auto. destruct (owner_eqb (l_owner l) (owner_of x KStub)) eqn:E; [apply owner_eqb_eq in E; congruence|]. rewrite andb_false_r. auto.
Qed.
Lemma owner_act : forall p x a k, owner_of (act p x a) k = owner_of x k.
Proof. intros p x a k. unfold owner_of. destruct (act_cur p x a) as [-> ->]. auto. Qed.
Lemma acts_keep : forall p l x y, In y (lives x) -> l_owner y <> owner_of x KStub -> In y (lives (fold_left (act p) l x)).
Proof. induction l as [|a l IH]; intros x y I O; cbn; auto. apply IH; [apply act_keep; auto|rewrite owner_act; auto]. Qed.
(** an event that leaves alone an item *)
Lemma step_keep : forall code x e l, In l (lives x) -> l_owner l <> owner_of x KStub ->
  match e with EClearCase c => l_owner l <> OCase c | EClearSuite s => l_owner l <> OSuite s | EClearRunner => l_owner l <> ORunner | _ => True end -> In l (lives (step code x e)).
Proof.
  intros code x e l I O H. destruct e as [s|c|p|c|s|]; cbn [step lives]; auto; try (apply acts_keep; auto); apply filter_In; (split; [auto|]).
  - destruct (owner_eqb (l_owner l) (OCase c)) eqn:E; auto. apply owner_eqb_eq in E. tauto.
  - destruct (owner_eqb (l_owner l) (OSuite s)) eqn:E; auto. apply owner_eqb_eq in E. tauto.
  - destruct (owner_eqb (l_owner l) ORunner) eqn:E; auto. apply owner_eqb_eq in E. tauto.
Qed.

(** *** global code *)
Definition glob_owner (o : owner) : Prop := o = ORunner \/ o = ONone.
(** owners of all items in a state *)
Definition all_owned (P : live -> Prop) (x : sc) : Prop := forall l, In l (lives x) -> P l.
Lemma step_sub : forall code x e l, In l (lives (step code x e)) -> In l (lives x) \/ (exists p, e = EUser p /\ l_origin l = p /\ l_owner l = owner_of x (i_kind (l_item l))).
Proof.
  intros code x e l I. destruct e as [s|c|p|c|s|]; cbn [step lives] in I; auto; try (apply filter_In in I; tauto).
  apply acts_lives in I. destruct I as [I|[I1 I2]]; eauto.
Qed.
Lemma early_owner : forall code es x, (forall e, In e es -> ~ moves e) -> cur_case x = None -> cur_suite x = None -> (forall l, In l (lives x) -> glob_owner (l_owner l)) ->
  forall l, In l (lives (exec code x es)) -> glob_owner (l_owner l).
Proof.
  intros code es. induction es as [|e es IH]; intros x H C S G l I; [apply G; auto|]. rewrite exec_cons in I.
  destruct (step_cur code x e) as [C1 S1]; [apply H; left; auto|]. apply (IH (step code x e)); auto; try congruence; [intros; apply H; right; auto|].
  intros l0 I0. apply step_sub in I0. destruct I0 as [I0|(p & _ & _ & ->)]; auto. unfold owner_of, glob_owner. rewrite C, S. destruct (i_kind (l_item l0)); auto.
Qed.
Lemma early_still : forall suites e, In e (early suites) -> ~ moves e.
Proof. intros suites e [<-|I]; [cbn; auto|]. eapply enum_still; eauto. Qed.
Lemma late_keep : forall code es x l, glob_owner (l_owner l) -> In l (lives x) -> cur_suite x <> None -> ~ In EClearRunner es -> In l (lives (exec code x es)).
Proof.
  intros code es. induction es as [|e es IH]; intros x l G I S N; auto. rewrite exec_cons. apply IH; auto.
  - apply step_keep; auto.
    + unfold owner_of. destruct G as [-> | ->]; destruct (cur_case x); try discriminate; destruct (cur_suite x); congruence.
    + destruct e; auto; try (destruct G as [-> | ->]; discriminate). exfalso. apply N. left. auto.
  - destruct e; cbn; try discriminate; auto. destruct (acts_cur p (code p) x) as [_ ->]. auto.
  - intros H. apply N. right. auto.
Qed.
Lemma rounds_head : forall (rs : list (nat * list (N * list (N * bool)))) e es, flat_map (fun nr => flat_map (suite_events (fst nr)) (snd nr)) rs = e :: es -> exists s, e = ESuite s.
Proof.
  induction rs as [|[n r] rs IH]; intros e es H; [discriminate|]. cbn [flat_map fst snd] in H. destruct r as [|[s cs] r]; [eapply IH; eauto|]. inversion H. eauto.
Qed.
Lemma global_kept : forall code suites rounds before after l, main_events suites rounds = early suites ++ before ++ after ->
  ~ In (EUser PGlobalCleanup) before -> ~ In EClearRunner before -> In l (lives (exec code sc0 (early suites))) -> In l (lives (exec code sc0 (early suites ++ before))).
Proof.
  intros code suites rounds before after l E NC NR I. rewrite exec_app. destruct before as [|e before]; [exact I|].
  assert (G : glob_owner (l_owner l)). { eapply (early_owner code (early suites) sc0); eauto; [apply early_still|intros l0 []]. }
  unfold main_events in E. change (EUser PGlobalSetup :: enum_events suites ++ ?z) with (early suites ++ z) in E. apply app_inv_head in E.
  assert (S : exists s, e = ESuite s).
  { destruct (flat_map _ _) as [|e' es] eqn:F in E; [|apply rounds_head in F; inversion E; subst; auto]. inversion E; subst. exfalso. apply NC. left. auto. }
  destruct S as (s & ->). rewrite exec_cons. apply late_keep; auto; [discriminate|]. intros H. apply NR. right. auto.
Qed.
(** *** at the end *)
Definition good (l : live) : Prop := (l_owner l = ONone -> i_kind (l_item l) = KDns) /\ (glob (l_origin l) -> glob_owner (l_owner l)).
Lemma good_step : forall code x e, (forall p, e = EUser p -> glob p -> cur_case x = None /\ cur_suite x = None) -> (forall l, In l (lives x) -> good l) -> forall l, In l (lives (step code x e)) -> good l.
Proof.
  intros code x e H G l I. apply step_sub in I. destruct I as [I|(p & E & O & W)]; auto. split.
  - intros N. rewrite W in N. unfold owner_of in N. destruct (cur_case x), (i_kind (l_item l)), (cur_suite x); try discriminate; auto.
  - rewrite O. intros Gp. destruct (H p E Gp) as [C S]. rewrite W. unfold owner_of, glob_owner. rewrite C, S. destruct (i_kind (l_item l)); auto.
Qed.
Lemma good_early : forall code es x, (forall e, In e es -> ~ moves e) -> cur_case x = None -> cur_suite x = None -> (forall l, In l (lives x) -> good l) -> forall l, In l (lives (exec code x es)) -> good l.
Proof.
  intros code es. induction es as [|e es IH]; intros x H C S G l I; [apply G; auto|]. rewrite exec_cons in I. destruct (step_cur code x e) as [C1 S1]; [apply H; left; auto|].
  apply (IH (step code x e)); auto; try congruence; [intros; apply H; right; auto|]. apply good_step; auto.
Qed.
Lemma good_late : forall code es x, (forall p, In (EUser p) es -> ~ glob p) -> (forall l, In l (lives x) -> good l) -> forall l, In l (lives (exec code x es)) -> good l.
Proof.
  intros code es. induction es as [|e es IH]; intros x H G l I; [apply G; auto|]. rewrite exec_cons in I. apply (IH (step code x e)); auto; [intros; apply H; right; auto|].
  apply good_step; auto. intros p -> Gp. exfalso. apply (H p); auto. left. auto.
Qed.
Lemma late_places : forall (rs : list (nat * list (N * list (N * bool)))) p, In (EUser p) (flat_map (fun nr => flat_map (suite_events (fst nr)) (snd nr)) rs ++ [EUser PGlobalCleanup]) -> ~ glob p.
Proof.
  intros rs p I. apply in_app_or in I. destruct I as [I|[I|[]]]; [|inversion I; cbn; auto]. apply in_flat_map in I. destruct I as ([n r] & _ & I). apply in_flat_map in I. destruct I as ([s cs] & _ & I).
  unfold suite_events in I. cbn [fst snd] in I. destruct I as [I|[I|I]]; [discriminate|inversion I; cbn; auto|]. apply in_app_or in I. destruct I as [I|[I|[I|[]]]]; [|discriminate|inversion I; cbn; auto].
  apply in_flat_map in I. destruct I as ([c b] & _ & I). unfold case_events in I. cbn [fst snd] in I. destruct b; cbn in I; intuition try discriminate; match goal with H : EUser _ = EUser _ |- _ => inversion H; subst; cbn in *; auto end.
Qed.
Lemma global_end : forall code suites rounds l, In l (lives (exec code sc0 (main_events suites rounds))) -> glob (l_origin l) -> i_kind (l_item l) = KDns.
Proof.
  intros code suites rounds l I G. unfold main_events in I. change (EUser PGlobalSetup :: enum_events suites ++ ?z) with (early suites ++ z) in I. rewrite exec_app in I.
  set (x := exec code sc0 (early suites)) in *. assert (Gx : forall l, In l (lives x) -> good l) by (apply good_early; auto; [apply early_still|intros l0 []]).
  match type of I with In l (lives (exec code x (?a ++ [?u; ?v]))) => change [u; v] with ([u] ++ [v]) in I; rewrite app_assoc in I; rewrite exec_app in I; set (y := exec code x (a ++ [u])) in * end.
  assert (Gy : forall l, In l (lives y) -> good l) by (apply good_late; auto; apply late_places).
  cbn [exec fold_left step lives] in I. apply filter_In in I. destruct I as [I1 I2]. destruct (Gy l I1) as [A B]. destruct (B G) as [O|O]; auto. rewrite O in I2. cbn in I2. destruct (i_kind (l_item l)); auto; discriminate.
Qed.

(** *** the first suite *)
Lemma later_none : forall code es x P, (forall l, In l (lives x) -> ~ P l) -> (forall p, In (EUser p) es -> forall l, l_origin l = p -> ~ P l) -> forall l, In l (lives (exec code x es)) -> ~ P l.
Proof.
  intros code es. induction es as [|e es IH]; intros x P H N l I; [apply H; auto|]. rewrite exec_cons in I. apply (IH (step code x e) P); auto; [|intros; eapply N; eauto; right; auto].
  intros l0 I0. apply step_sub in I0. destruct I0 as [I0|(p & -> & O & _)]; auto. apply (N p); auto. left. auto.
Qed.
Lemma exec_noorigin : forall code es x p, (forall l, In l (lives x) -> l_origin l <> p) -> ~ In (EUser p) es -> forall l, In l (lives (exec code x es)) -> l_origin l <> p.
Proof.
  intros code es x p H N l I. apply (later_none code es x (fun l => l_origin l = p)); auto. intros q I' l0 O O'. apply N. rewrite <- O', O. exact I'.
Qed.
Definition sown (s : N) (l : live) : Prop := l_origin l = PSuiteSetup 0 s -> i_kind (l_item l) = KDns \/ l_owner l = OSuite s.
Lemma sown_exec : forall code es x s, (forall l, In l (lives x) -> sown s l) -> ~ In (EUser (PSuiteSetup 0 s)) es -> forall l, In l (lives (exec code x es)) -> sown s l.
Proof.
  intros code es. induction es as [|e es IH]; intros x s H N l I; [apply H; auto|]. rewrite exec_cons in I. apply (IH (step code x e)); auto; [|intros J; apply N; right; auto].
  intros l0 I0. apply step_sub in I0. destruct I0 as [I0|(p & -> & O & _)]; auto. intros O'. exfalso. apply N. left. congruence.
Qed.
Lemma cases_no_setup : forall n s cs n' s', ~ In (EUser (PSuiteSetup n' s')) (flat_map (case_events n s) cs).
Proof.
  intros n s cs n' s' I. apply in_flat_map in I. destruct I as ([c b] & _ & I). unfold case_events in I. cbn [fst snd] in I. destruct b; cbn in I; intuition discriminate.
Qed.
Lemma early_no_setup : forall suites n s, ~ In (EUser (PSuiteSetup n s)) (early suites).
Proof. intros suites n s [I|I]; [discriminate|]. apply in_flat_map in I. destruct I as (t & _ & I). cbn in I. intuition discriminate. Qed.
Lemma first_state : forall code suites s, let x := exec code sc0 (early suites ++ [ESuite s]) in cur_case x = None /\ cur_suite x = Some s /\ forall l, In l (lives x) -> l_origin l <> PSuiteSetup 0 s.
Proof.
  intros code suites s x. unfold x. rewrite exec_app. destruct (exec_cur code (early suites) sc0 (early_still suites)) as [C S]. cbn [exec fold_left step cur_case cur_suite lives].
  split; [exact C|]. split; auto. apply exec_noorigin; [intros l []|apply early_no_setup].
Qed.
Lemma first_suite_gone : forall code suites s cs later, ~ In (EUser (PSuiteSetup 0 s)) later ->
  forall l, In l (lives (exec code sc0 (early suites ++ ESuite s :: EUser (PSuiteSetup 0 s) :: flat_map (case_events 0 s) cs ++ EClearSuite s :: later))) -> l_origin l = PSuiteSetup 0 s -> i_kind (l_item l) = KDns.
Proof.
  intros code suites s cs later N l I O.
  change (ESuite s :: ?z) with ([ESuite s] ++ z) in I. rewrite app_assoc, exec_app in I. destruct (first_state code suites s) as (C & S & F). set (x := exec code sc0 (early suites ++ [ESuite s])) in *.
  rewrite exec_cons in I. set (x1 := step code x (EUser (PSuiteSetup 0 s))) in *.
  assert (S1 : forall l, In l (lives x1) -> sown s l).
  { intros l0 I0. apply step_sub in I0. destruct I0 as [I0|(p & E & O0 & W)]; [intros O'; destruct (F l0 I0 O')|]. intros _. unfold owner_of in W. rewrite C, S in W. destruct (i_kind (l_item l0)); auto. }
  rewrite exec_app in I. set (x2 := exec code x1 _) in *. assert (S2 : forall l, In l (lives x2) -> sown s l) by (apply sown_exec; auto; apply cases_no_setup).
  rewrite exec_cons in I. set (x3 := step code x2 (EClearSuite s)) in *.
  assert (S3 : forall l, In l (lives x3) -> ~ (l_origin l = PSuiteSetup 0 s /\ i_kind (l_item l) <> KDns)).
  { intros l0 I0 [O0 K0]. cbn in I0. apply filter_In in I0. destruct I0 as [I1 I2]. destruct (S2 l0 I1 O0) as [D|D]; [tauto|]. rewrite D in I2. cbn in I2. rewrite N.eqb_refl in I2. destruct (i_kind (l_item l0)); cbn in I2; try discriminate. tauto. }
  destruct (i_kind (l_item l)) eqn:K; auto; exfalso; revert I; intros I; apply (later_none code later x3 (fun l => l_origin l = PSuiteSetup 0 s /\ i_kind (l_item l) <> KDns) S3) with (l := l); auto; try (split; [auto|congruence]);
    intros p Ip l0 O0 [O1 _]; apply N; congruence.
Qed.
Lemma cases_first : forall n s cs e es, flat_map (case_events n s) cs = e :: es -> exists c, e = ECase c.
Proof. intros n s [|[c b] cs] e es H; [discriminate|]. inversion H. eauto. Qed.
Lemma suite_keep : forall code es x l s, l_owner l = OSuite s \/ l_owner l = ONone -> In l (lives x) -> cur_case x <> None -> ~ In (EClearSuite s) es -> In l (lives (exec code x es)).
Proof.
  intros code es. induction es as [|e es IH]; intros x l s G I S N; auto. rewrite exec_cons. apply (IH _ l s); auto.
  - apply step_keep; auto.
    + unfold owner_of. destruct (cur_case x); [|congruence]. destruct G as [-> | ->]; discriminate.
    + destruct e; auto; try (destruct G as [-> | ->]; discriminate). intros Q. destruct G as [G|G]; [|congruence]. apply N. left. congruence.
  - destruct e; cbn; try discriminate; auto. destruct (acts_cur p (code p) x) as [-> _]. auto.
  - intros H. apply N. right. auto.
Qed.
Lemma cases_noclear : forall n s cs t, ~ In (EClearSuite t) (flat_map (case_events n s) cs).
Proof. intros n s cs t I. apply in_flat_map in I. destruct I as ([c b] & _ & I). unfold case_events in I. cbn [fst snd] in I. destruct b; cbn in I; intuition discriminate. Qed.
Lemma first_suite_kept : forall code suites s cs before after, flat_map (case_events 0 s) cs = before ++ after ->
  forall l, In l (lives (exec code sc0 (early suites ++ [ESuite s; EUser (PSuiteSetup 0 s)]))) -> l_origin l = PSuiteSetup 0 s -> In l (lives (exec code sc0 (early suites ++ [ESuite s; EUser (PSuiteSetup 0 s)] ++ before))).
Proof.
  intros code suites s cs before after E l I O. rewrite app_assoc, exec_app. destruct before as [|e before]; [exact I|]. destruct (cases_first 0 s cs e (before ++ after)) as (c & ->); [exact E|].
  rewrite exec_cons. apply suite_keep with (s := s); auto; [|discriminate|].
  - change [ESuite s; EUser (PSuiteSetup 0 s)] with ([ESuite s] ++ [EUser (PSuiteSetup 0 s)]) in I. rewrite app_assoc, exec_app in I. destruct (first_state code suites s) as (C & S & F). set (x := exec code sc0 (early suites ++ [ESuite s])) in *.
    change (exec code x [EUser (PSuiteSetup 0 s)]) with (step code x (EUser (PSuiteSetup 0 s))) in I. apply step_sub in I. destruct I as [I|(p & _ & _ & W)]; [destruct (F l I O)|]. rewrite W. unfold owner_of. rewrite C, S. destruct (i_kind (l_item l)); auto.
  - intros H. apply (cases_noclear 0 s cs s). rewrite E. right. apply in_or_app. left. auto.
Qed.

(** *** UNSTUB *)
Lemma acts_none : forall p f l x, ~ In (Make (mkitem KStub f)) l -> (forall y, In y (lives x) -> ~ (l_origin y = p /\ l_item y = mkitem KStub f)) ->
  forall y, In y (lives (fold_left (act p) l x)) -> ~ (l_origin y = p /\ l_item y = mkitem KStub f).
Proof.
  intros p f l. induction l as [|a l IH]; intros x N H y I; [apply H; auto|]. cbn [fold_left] in I. apply (IH (act p x a)); auto; [intros J; apply N; right; auto|].
  intros z Iz. destruct a as [i|g]; cbn [act lives] in Iz; [|apply filter_In in Iz; apply H; tauto]. destruct Iz as [<-|Iz]; auto. cbn. intros [_ E]. apply N. left. congruence.
Qed.
Lemma unstub_gone : forall code x p f pre post, code p = pre ++ Unstub f :: post -> ~ In (Make (mkitem KStub f)) post -> (forall y, In y (lives x) -> l_origin y <> p) ->
  forall y, In y (lives (step code x (EUser p))) -> l_origin y = p -> l_item y <> mkitem KStub f.
Proof.
  intros code x p f pre post E N H y I O Q. cbn [step] in I. rewrite E, fold_left_app in I. cbn [fold_left] in I. set (x1 := fold_left (act p) pre x) in *.
  revert I. intros I. eapply (acts_none p f post _ N); [|exact I|auto]. intros z Iz [Oz Qz]. cbn [act lives] in Iz. apply filter_In in Iz. destruct Iz as [I1 I2].
  assert (W : l_owner z = owner_of x1 KStub). { apply acts_lives in I1. destruct I1 as [I1|[_ W]]; [destruct (H z I1 Oz)|]. rewrite W, Qz. cbn [i_kind]. unfold owner_of. destruct (acts_cur p pre x) as [A B]. fold x1 in A, B. rewrite A, B. auto. }
  rewrite Qz, W in I2. cbn [i_kind i_what kind_eqb] in I2. rewrite N.eqb_refl in I2. assert (T : owner_eqb (owner_of x1 KStub) (owner_of x1 KStub) = true) by (apply owner_eqb_eq; auto). rewrite T in I2. discriminate.
Qed.
Lemma body_unstub : forall code suites rounds n s c x f pre post, reaches code suites rounds (EUser (PBody n s c)) x -> code (PBody n s c) = pre ++ Unstub f :: post -> ~ In (Make (mkitem KStub f)) post ->
  forall l, In l (lives (step code x (EUser (PBody n s c)))) -> l_origin l = PBody n s c -> l_item l <> mkitem KStub f.
Proof.
  intros code suites rounds n s c x f pre post R E N. eapply unstub_gone; eauto. intros y I O. pose proof (body_meets _ _ _ _ _ _ _ R y I) as M. rewrite O in M. cbn in M. specialize (M Logic.I). discriminate.
Qed.
