From Coq Require Import List NArith Bool Arith Lia.
From Verif Require Import ScopeModel ScopeSpec.
Import ListNotations.
Local Open Scope N_scope.

Lemma owner_eqb_eq : forall a b, owner_eqb a b = true <-> a = b.
Proof. intros [] []; cbn; try rewrite N.eqb_eq; split; intro H; try congruence; try discriminate. Qed.
Lemma act_cur : forall p x a, cur_case (act p x a) = cur_case x /\ cur_suite (act p x a) = cur_suite x. Proof. intros p x []; auto. Qed.
Lemma acts_cur : forall p l x, cur_case (fold_left (act p) l x) = cur_case x /\ cur_suite (fold_left (act p) l x) = cur_suite x.
Proof. induction l as [|a l IH]; intros x; cbn; auto. destruct (IH (act p x a)) as [-> ->]. apply act_cur. Qed.
(** user code only adds items of its own place, owned as the pointers say *)
Lemma acts_lives : forall p l x i, In i (lives (fold_left (act p) l x)) -> In i (lives x) \/ (l_origin i = p /\ l_owner i = owner_of x (i_kind (l_item i))).
Proof.
  induction l as [|a l IH]; intros x i I; cbn in I; auto. apply IH in I. destruct (act_cur p x a) as [C S].
  destruct I as [I|[I1 I2]].
  - destruct a as [j|f]; cbn in I; [destruct I as [<-|I]; auto|apply filter_In in I; tauto].
  - right. split; auto. rewrite I2. unfold owner_of. rewrite C, S. auto.
Qed.

(** items of cases in force belong to the current case c *)
Definition owned (c : N) (x : sc) : Prop := forall l, In l (lives x) -> of_case (l_origin l) -> l_owner l = OCase c.

Lemma user_other : forall code p x, ~ of_case p -> no_case_items x -> no_case_items (step code x (EUser p)).
Proof. intros code p x Np H l I. cbn in I. apply acts_lives in I. destruct I as [I|[I _]]; auto. rewrite I. auto. Qed.
Lemma clear_sub : forall (f : live -> bool) x, no_case_items x -> forall l, In l (filter f (lives x)) -> ~ of_case (l_origin l).
Proof. intros f x H l I. apply filter_In in I. apply H. tauto. Qed.
Lemma user_own : forall code p c x, cur_case x = Some c -> owned c x -> owned c (step code x (EUser p)).
Proof. intros code p c x C H l I O. cbn in I. apply acts_lives in I. destruct I as [I|[_ I]]; auto. rewrite I. unfold owner_of. rewrite C. auto. Qed.
Lemma clear_own : forall code c x, owned c x -> no_case_items (step code x (EClearCase c)).
Proof. intros code c x H l I O. cbn in I. apply filter_In in I. destruct I as [I1 I2]. rewrite (H l I1 O) in I2. cbn in I2. rewrite N.eqb_refl in I2. discriminate. Qed.

(** a list of events keeps the property at all its boundaries and at the end *)
Definition keeps (code : place -> list action) (es : list event) : Prop :=
  forall x, no_case_items x -> no_case_items (exec code x es) /\
  forall before e after, es = before ++ e :: after -> boundary e -> no_case_items (exec code x before).
Lemma keeps_nil : forall code, keeps code [].
Proof. intros code x H. split; auto. intros before e after E. destruct before; discriminate. Qed.
Lemma keeps_app : forall code a b, keeps code a -> keeps code b -> keeps code (a ++ b).
Proof.
  intros code a b Ka Kb x H. destruct (Ka x H) as [Ha1 Ha2]. destruct (Kb (exec code x a) Ha1) as [Hb1 Hb2]. unfold exec in *. rewrite fold_left_app. split; auto.
  intros before e after E B. symmetry in E. apply app_eq_app in E. destruct E as (l & [[E1 E2]|[E1 E2]]).
  - subst before. rewrite fold_left_app. apply (Hb2 l e after); auto.
  - destruct l as [|y l].
    + rewrite app_nil_r in E1. subst before. auto.
    + cbn in E2. inversion E2; subst. apply (Ha2 before y l); auto.
Qed.
Lemma keeps_one : forall code e, (forall x, no_case_items x -> no_case_items (step code x e)) -> keeps code [e].
Proof.
  intros code e K x H. split; [apply K; auto|]. intros before e' after E B. destruct before as [|y before]; [auto|]. inversion E. destruct before; discriminate.
Qed.
Lemma keeps_flat : forall code (A : Type) (f : A -> list event) l, (forall a, In a l -> keeps code (f a)) -> keeps code (flat_map f l).
Proof. induction l as [|a l IH]; intros H; cbn; [apply keeps_nil|]. apply keeps_app; [apply H; left; auto|]. apply IH. intros; apply H; right; auto. Qed.
Lemma keeps_user : forall code p, ~ of_case p -> keeps code [EUser p].
Proof. intros. apply keeps_one. intros. apply user_other; auto. Qed.
Lemma keeps_case : forall code n s x, keeps code (case_events n s x).
Proof.
  intros code n s [c b]. unfold case_events. cbn [fst snd]. destruct b; [|apply keeps_one; intros x H l I; apply (H l I)].
  change [ECase c; EUser (PCaseSetup n s c); EUser (PBody n s c); EClearCase c; EUser (PCaseCleanup n s c)]
    with ([ECase c; EUser (PCaseSetup n s c); EUser (PBody n s c); EClearCase c] ++ [EUser (PCaseCleanup n s c)]).
  apply keeps_app; [|apply keeps_user; cbn; auto].
  intros x H. set (x1 := step code x (ECase c)). assert (H1 : no_case_items x1) by (intros l I; apply (H l I)).
  assert (O1 : owned c x1) by (intros l I O; exfalso; apply (H1 l I O)).
  assert (C1 : cur_case x1 = Some c) by auto.
  set (x2 := step code x1 (EUser (PCaseSetup n s c))). assert (O2 : owned c x2) by (apply user_own; auto). assert (C2 : cur_case x2 = Some c) by (unfold x2; cbn [step]; destruct (acts_cur (PCaseSetup n s c) (code (PCaseSetup n s c)) x1) as [-> _]; auto).
  set (x3 := step code x2 (EUser (PBody n s c))). assert (O3 : owned c x3) by (apply user_own; auto).
  split; [change (no_case_items (step code x3 (EClearCase c))); apply clear_own; auto|].
  intros before e after E B. destruct before as [|e1 before]; [auto|]. inversion E as [[E1 E']]. subst e1.
  destruct before as [|e2 before]; [cbn in E'; inversion E'; subst; exact H1|]. inversion E' as [[E2 E'']]. subst e2.
  destruct before as [|e3 before]; [cbn in E''; inversion E''; subst; destruct B|]. inversion E'' as [[E3 E''']]. subst e3.
  destruct before as [|e4 before]; [cbn in E'''; inversion E'''; subst; destruct B|]. inversion E'''. destruct before; discriminate.
Qed.
Lemma keeps_suite : forall code n x, keeps code (suite_events n x).
Proof.
  intros code n [s cs]. unfold suite_events. cbn [fst snd].
  change (ESuite s :: EUser (PSuiteSetup n s) :: flat_map (case_events n s) cs ++ [EClearSuite s; EUser (PSuiteCleanup n s)])
    with ([ESuite s] ++ [EUser (PSuiteSetup n s)] ++ flat_map (case_events n s) cs ++ [EClearSuite s] ++ [EUser (PSuiteCleanup n s)]).
  apply keeps_app; [apply keeps_one; intros x H l I; apply (H l I)|]. apply keeps_app; [apply keeps_user; cbn; auto|].
  apply keeps_app; [apply keeps_flat; intros; apply keeps_case|]. apply keeps_app; [|apply keeps_user; cbn; auto].
  apply keeps_one. intros x H l I. cbn in I. eapply clear_sub; eauto.
Qed.
Lemma keeps_main : forall code suites rounds, keeps code (main_events suites rounds).
Proof.
  intros. unfold main_events. match goal with |- keeps _ (?a :: ?l ++ ?m ++ [?u; ?v]) => change (a :: l ++ m ++ [u; v]) with ([a] ++ l ++ m ++ [u] ++ [v]) end.
  apply keeps_app; [apply keeps_user; cbn; auto|]. apply keeps_app.
  - apply keeps_flat. intros s _. change [EUser (PEnumSuiteSetup s); EUser (PEnumBody s); EClearSuite s; EUser (PEnumSuiteCleanup s)] with ([EUser (PEnumSuiteSetup s)] ++ [EUser (PEnumBody s)] ++ [EClearSuite s] ++ [EUser (PEnumSuiteCleanup s)]).
    apply keeps_app; [apply keeps_user; cbn; auto|]. apply keeps_app; [apply keeps_user; cbn; auto|]. apply keeps_app; [|apply keeps_user; cbn; auto].
    apply keeps_one. intros x H l I. cbn in I. eapply clear_sub; eauto.
  - apply keeps_app; [apply keeps_flat; intros; apply keeps_flat; intros; apply keeps_suite|]. apply keeps_app; [apply keeps_user; cbn; auto|].
    apply keeps_one. intros x H l I. cbn in I. eapply clear_sub; eauto.
Qed.
Lemma case_items_gone : forall code suites rounds e x, boundary e -> reaches code suites rounds e x -> no_case_items x.
Proof. intros code suites rounds e x B (before & after & E & ->). destruct (keeps_main code suites rounds sc0) as [_ K]; [intros l []|]. eapply K; eauto. Qed.
Lemma case_items_gone_end : forall code suites rounds, no_case_items (exec code sc0 (main_events suites rounds)).
Proof. intros. apply keeps_main. intros l []. Qed.

(** a body only meets what global code or this very case installed *)
Definition mine (n : nat) (s c : N) (x : sc) : Prop := forall l, In l (lives x) -> of_case (l_origin l) -> l_origin l = PCaseSetup n s c.
Lemma body_meets : forall code suites rounds n s c x, reaches code suites rounds (EUser (PBody n s c)) x -> mine n s c x.
Proof.
  intros code suites rounds n s c x (before & after & E & ->).
  (* the event before a body is the case setup of the same case *)
  assert (P : exists b', before = b' ++ [EUser (PCaseSetup n s c)]).
  { clear - E. assert (K : forall es, (forall b a, es = b ++ EUser (PBody n s c) :: a -> exists b', b = b' ++ [EUser (PCaseSetup n s c)]) -> True) by auto. clear K.
    assert (G : forall es1 es2, (forall b a, es1 = b ++ EUser (PBody n s c) :: a -> exists b', b = b' ++ [EUser (PCaseSetup n s c)]) ->
      (forall b a, es2 = b ++ EUser (PBody n s c) :: a -> exists b', b = b' ++ [EUser (PCaseSetup n s c)]) ->
      forall b a, es1 ++ es2 = b ++ EUser (PBody n s c) :: a -> exists b', b = b' ++ [EUser (PCaseSetup n s c)]).
    { intros es1 es2 H1 H2 b a Eq. symmetry in Eq. apply app_eq_app in Eq. destruct Eq as (l & [[E1 E2]|[E1 E2]]).
      - destruct (H2 l a) as (b' & ->); [auto|]. exists (es1 ++ b'). rewrite E1, app_assoc. auto.
      - destruct l as [|y l].
        + destruct (H2 [] a) as (b' & Z); [cbn in E2; auto|]. destruct b'; discriminate.
        + cbn in E2. inversion E2; subst. apply (H1 b l). auto. }
    assert (F : forall (A : Type) (f : A -> list event) l, (forall y, In y l -> forall b a, f y = b ++ EUser (PBody n s c) :: a -> exists b', b = b' ++ [EUser (PCaseSetup n s c)]) ->
      forall b a, flat_map f l = b ++ EUser (PBody n s c) :: a -> exists b', b = b' ++ [EUser (PCaseSetup n s c)]).
    { induction l as [|y l IH]; intros H b a Eq; [destruct b; discriminate|]. cbn in Eq. revert b a Eq. apply G; [apply H; left; auto|]. apply IH. intros y0 I0. apply (H y0). right; auto. }
    assert (O : forall es, ~ In (EUser (PBody n s c)) es -> forall b a, es = b ++ EUser (PBody n s c) :: a -> exists b', b = b' ++ [EUser (PCaseSetup n s c)]).
    { intros es H b a Eq. exfalso. apply H. rewrite Eq. apply in_or_app. right. left. auto. }
    revert before after E. unfold main_events. match goal with |- forall before after, ?a :: ?l ++ ?m ++ ?u = _ -> _ => change (a :: l ++ m ++ u) with ([a] ++ l ++ m ++ u) end.
    apply G; [apply O; cbn; intuition discriminate|]. apply G; [apply O|apply G].
    - unfold enum_events. intro I. apply in_flat_map in I. destruct I as (y & _ & I). cbn in I. intuition discriminate.
    - apply F. intros [m r] _. cbn [fst snd]. apply F. intros [s' cs] _. unfold suite_events. cbn [fst snd].
      match goal with |- forall b a, ?e1 :: ?e2 :: ?l ++ ?u = _ -> _ => change (e1 :: e2 :: l ++ u) with ([e1; e2] ++ l ++ u) end.
      apply G; [apply O; cbn; intuition discriminate|]. apply G; [|apply O; cbn; intuition discriminate].
      apply F. intros [c' ex] _ b a Eq. unfold case_events in Eq. cbn [fst snd] in Eq. destruct ex.
      + destruct b as [|b1 b]; [discriminate|]. inversion Eq as [[Q1 Eq1]]. destruct b as [|b2 b]; [discriminate|]. inversion Eq1 as [[Q2 Eq2]]. 
        destruct b as [|b3 b]; [cbn in Eq2; inversion Eq2; subst; exists [ECase c]; auto|]. inversion Eq2 as [[Q3 Eq3]]. destruct b as [|b4 b]; [discriminate|]. inversion Eq3 as [[Q4 Eq4]].
        destruct b as [|b5 b]; [discriminate|]. inversion Eq4 as [[Q5 Eq5]]. destruct b; discriminate.
      + destruct b as [|b1 b]; [discriminate|]. inversion Eq as [[Q1 Eq1]]. destruct b; discriminate.
    - apply O. cbn. intuition discriminate. }
  destruct P as (b' & ->). unfold exec. rewrite fold_left_app. cbn [fold_left]. fold (exec code sc0 b').
  assert (N : no_case_items (exec code sc0 b')).
  { apply (case_items_gone code suites rounds (EUser (PCaseSetup n s c))); [cbn; auto|]. exists b', (EUser (PBody n s c) :: after). split; auto. rewrite E, <- app_assoc. auto. }
  intros l I O. cbn [step] in I. apply acts_lives in I. destruct I as [I|[I _]]; auto. exfalso. apply (N l I O).
Qed.
