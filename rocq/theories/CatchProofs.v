From Coq Require Import List NArith Bool.
From Verif Require Import CatchModel CatchSpec.
Import ListNotations.
Local Open Scope N_scope.

Lemma stmt_all (P : stmt -> Prop) :
  (forall k, P (CSay k)) -> (forall t v, P (CThrow t v)) -> P CFail -> P CReturn ->
  (forall b, Forall P b -> P (CTry b)) -> (forall e b, Forall P b -> P (CCatch e b)) -> forall s, P s.
Proof.
  intros H1 H2 H3 H4 H5 H6.
  fix rec 1. intros [k|t v| | |b|e b]; [apply H1 | apply H2 | exact H3 | exact H4 | |].
  - apply H5. induction b as [|x b IH]; constructor; [apply rec | exact IH].
  - apply H6. induction b as [|x b IH]; constructor; [apply rec | exact IH].
Qed.
Lemma in_order_step f s r st out st2 e : in_order f (s :: r) st = (out, st2, e) ->
  (exists st1 e1 e2, f s st = (Normal, st1, e1) /\ in_order f r st1 = (out, st2, e2) /\ e = e1 ++ e2) \/ (out <> Normal /\ f s st = (out, st2, e)).
Proof.
  intros H. cbn in H. fold (in_order f) in H. destruct (f s st) as [[o1 st1] e1] eqn:E. destruct o1.
  - left. destruct (in_order f r st1) as [[o3 st3] e3] eqn:E3. injection H as <- <- <-. eauto 8.
  - right. injection H as <- <- <-. split; [discriminate | reflexivity].
  - right. injection H as <- <- <-. split; [discriminate | reflexivity].
  - right. injection H as <- <- <-. split; [discriminate | reflexivity].
  - right. injection H as <- <- <-. split; [discriminate | reflexivity].
Qed.

(* the verdict *)
Lemma complaint_none e th : complaint e th = None <-> accepted e th.
Proof.
  split.
  - destruct e as [|t m], th as [[t1 v]|]; cbn; intros H; try discriminate; [constructor|].
    destruct (N.eqb_spec t t1) as [->|]; [|discriminate]. destruct (m v) eqn:E; [|discriminate]. constructor. exact E.
  - intros H. destruct H as [|t m v E]; [reflexivity|]. cbn. rewrite N.eqb_refl, E. reflexivity.
Qed.
Lemma complaint_some e th w : complaint e th = Some w <-> because e th w.
Proof.
  split.
  - destruct e as [|t m], th as [[t1 v]|]; cbn; intros H; try discriminate; try (injection H as <-; constructor).
    destruct (N.eqb_spec t t1) as [->|Hn]; [destruct (m v) eqn:E; [discriminate|]|]; injection H as <-; constructor; assumption.
  - intros H. destruct H as [t m|t v|t m t1 v Hn|t m v E]; try reflexivity.
    + cbn. apply N.eqb_neq in Hn. rewrite Hn. reflexivity.
    + cbn. rewrite N.eqb_refl, E. reflexivity.
Qed.
Lemma because_not e th w : because e th w -> ~ accepted e th.
Proof. intros H A. apply complaint_some in H. apply complaint_none in A. congruence. Qed.

(* the ideal run, statement by statement *)
Inductive ideal1 (c : bool) : stmt -> ends -> list event -> Prop :=
| i1_say k : ideal1 c (CSay k) IEnd [Said k]
| i1_throw t v : ideal1 c (CThrow t v) (IThrow t v) []
| i1_return : ideal1 c CReturn IReturn []
| i1_fail : ideal1 c CFail (if c then IEnd else ILeft) [CheckFailed]
| i1_try b x ev : ideal c b x ev -> ideal1 c (CTry b) (match x with IThrow _ _ => IEnd | y => y end) ev
| i1_catch e b x th ev : ideal c b x ev -> threw x th ->
    ideal1 c (CCatch e b) (match complaint e th with None => IEnd | Some _ => if c then IEnd else ILeft end) (ev ++ [Verdict (complaint e th)])
| i1_catch_out e b x ev : ideal c b x ev -> x = ILeft \/ x = IReturn -> ideal1 c (CCatch e b) x ev.
Lemma ideal_cons c s r x1 ev1 x ev : ideal1 c s x1 ev1 ->
  (x1 = IEnd /\ exists ev2, ideal c r x ev2 /\ ev = ev1 ++ ev2) \/ (x1 <> IEnd /\ x = x1 /\ ev = ev1) -> ideal c (s :: r) x ev.
Proof.
  intros H1 H2. destruct H1 as [k|t v| | |b y ev1 Hb|e b y th ev1 Hb Ht|e b y ev1 Hb Hy].
  - destruct H2 as [[_ (ev2 & H & ->)] | [H _]]; [|contradiction]. constructor. exact H.
  - destruct H2 as [[H _] | (_ & -> & ->)]; [discriminate|]. constructor.
  - destruct H2 as [[H _] | (_ & -> & ->)]; [discriminate|]. constructor.
  - destruct c eqn:Ec.
    + destruct H2 as [[_ (ev2 & H & ->)] | [H _]]; [|contradiction]. apply id_fail_on; auto.
    + destruct H2 as [[H _] | (_ & -> & ->)]; [discriminate|]. apply id_fail. reflexivity.
  - destruct y.
    + destruct H2 as [[_ (ev2 & H & ->)] | [H _]]; [|contradiction]. eapply id_try_end; eauto.
    + destruct H2 as [[H _] | (_ & -> & ->)]; [discriminate|]. apply id_try_out; auto.
    + destruct H2 as [[H _] | (_ & -> & ->)]; [discriminate|]. apply id_try_out; auto.
    + destruct H2 as [[_ (ev2 & H & ->)] | [H _]]; [|contradiction]. eapply id_try_throw; eauto.
  - destruct (complaint e th) as [w|] eqn:E.
    + apply complaint_some in E. destruct c eqn:Ec.
      * destruct H2 as [[_ (ev2 & H & ->)] | [H _]]; [|contradiction]. rewrite <- app_assoc. cbn. eapply id_catch_no_on; eauto. eapply because_not; eauto.
      * destruct H2 as [[H _] | (_ & -> & ->)]; [discriminate|]. eapply id_catch_no; eauto. eapply because_not; eauto.
    + apply complaint_none in E. destruct H2 as [[_ (ev2 & H & ->)] | [H _]]; [|contradiction]. rewrite <- app_assoc. cbn. eapply id_catch_ok; eauto.
  - destruct H2 as [[H _] | (_ & -> & ->)]; [subst; destruct Hy; discriminate|]. apply id_catch_out; auto.
Qed.

Definition of_outcome (out : outcome) (x : ends) : Prop :=
  match out, x with Normal, IEnd => True | Jumped, ILeft => True | Returned, IReturn => True | Thrown t v, IThrow t1 v1 => t = t1 /\ v = v1 | _, _ => False end.
(* within the Catch f *)
Definition within (f : N) (st : state) : Prop := catching st = true /\ hole st = f.
Definition of_inner (f : N) (st : state) (out : outcome) (st1 : state) (x : ends) : Prop :=
  (out = Normal /\ x = IEnd /\ st1 = st) \/ (out = ToHole f /\ exists t v, x = IThrow t v /\ thrown st1 = Some (t, v) /\ frames st1 = frames st /\ within f st1).
Lemma inner_code c f (P : stmt -> Prop) b : (forall s, P s -> forall st out st1 e, orderly c true s = true -> within f st -> exec c s st = (out, st1, e) -> exists x, ideal1 c s x e /\ of_inner f st out st1 x) ->
  Forall P b -> forall st out st1 e, forallb (orderly c true) b = true -> within f st -> run_code c b st = (out, st1, e) -> exists x, ideal c b x e /\ of_inner f st out st1 x.
Proof.
  intros HP Hb. induction Hb as [|s r Hs Hr IH]; intros st out st1 e Ho Hw H.
  - injection H as <- <- <-. exists IEnd. split; [constructor|]. left. auto.
  - cbn in Ho. apply andb_prop in Ho as [O1 O2].
    apply in_order_step in H as [(st3 & e1 & e2 & H1 & H2 & ->) | [Hn H]].
    + destruct (HP _ Hs _ _ _ _ O1 Hw H1) as (x1 & I1 & [(_ & -> & ->) | (D & _)]); [|discriminate].
      destruct (IH _ _ _ _ O2 Hw H2) as (x & I2 & K). exists x. split; [|exact K]. eapply ideal_cons; [exact I1|]. left. eauto.
    + destruct (HP _ Hs _ _ _ _ O1 Hw H) as (x1 & I1 & K). exists x1. split; [|exact K]. eapply ideal_cons; [exact I1|]. right.
      destruct K as [(D & _) | (_ & t & v & -> & _)]; [contradiction|]. split; [discriminate | auto].
Qed.
Lemma throwless_ideal c b x ev : ideal c b x ev -> forallb throwless b = true -> forall t v, x <> IThrow t v.
Proof.
  induction 1; cbn; intros Ht; try (apply andb_prop in Ht as [T1 T2]); try discriminate; eauto; try congruence.
  all: intros; match goal with H : _ \/ _ |- _ => destruct H; subst; discriminate end.
Qed.
Lemma inner c f : forall s st out st1 e, orderly c true s = true -> within f st -> exec c s st = (out, st1, e) -> exists x, ideal1 c s x e /\ of_inner f st out st1 x.
Proof.
  intros s. induction s as [k|t v| | |b Hb|e0 b Hb] using stmt_all; intros st out st1 e Ho Hw H; cbn [exec] in H.
  - injection H as <- <- <-. exists IEnd. split; [constructor | left; auto].
  - unfold throw in H. destruct Hw as [W1 W2]. rewrite W1, W2 in H. injection H as <- <- <-. exists (IThrow t v). split; [constructor|]. right.
    split; [reflexivity|]. exists t, v. repeat split; auto.
  - cbn in Ho. rewrite orb_false_r in Ho. subst c. injection H as <- <- <-. exists IEnd. split; [apply (i1_fail true) | left; auto].
  - discriminate.
  - cbn in Ho. apply andb_prop in Ho as [O1 O2].
    destruct (in_order (exec c) b st) as [[o2 st2] e2] eqn:E.
    destruct (inner_code c f (fun s => forall st out st1 e, orderly c true s = true -> within f st -> exec c s st = (out, st1, e) -> exists x, ideal1 c s x e /\ of_inner f st out st1 x) b (fun s Hs => Hs) Hb _ _ _ _ O1 Hw E) as (x & I1 & K).
    destruct K as [(-> & -> & ->) | (-> & t & v & -> & _)].
    + injection H as <- <- <-. exists IEnd. split; [apply (i1_try c b IEnd); exact I1 | left; auto].
    + exfalso. exact (throwless_ideal _ _ _ _ I1 O2 t v eq_refl).
  - discriminate.
Qed.

(* outside of Catch *)
Lemma outer_code c (P : stmt -> Prop) b : (forall s, P s -> forall st out st1 e, orderly c false s = true -> catching st = false -> exec c s st = (out, st1, e) -> catching st1 = false /\ exists x, ideal1 c s x e /\ of_outcome out x) ->
  Forall P b -> forall st out st1 e, forallb (orderly c false) b = true -> catching st = false -> run_code c b st = (out, st1, e) -> catching st1 = false /\ exists x, ideal c b x e /\ of_outcome out x.
Proof.
  intros HP Hb. induction Hb as [|s r Hs Hr IH]; intros st out st1 e Ho Hw H.
  - injection H as <- <- <-. split; [exact Hw|]. exists IEnd. split; [constructor | exact I].
  - cbn in Ho. apply andb_prop in Ho as [O1 O2].
    apply in_order_step in H as [(st3 & e1 & e2 & H1 & H2 & ->) | [Hn H]].
    + destruct (HP _ Hs _ _ _ _ O1 Hw H1) as (C1 & x1 & I1 & K1). destruct x1; try contradiction.
      destruct (IH _ _ _ _ O2 C1 H2) as (C2 & x & I2 & K). split; [exact C2|]. exists x. split; [|exact K]. eapply ideal_cons; [exact I1|]. left. eauto.
    + destruct (HP _ Hs _ _ _ _ O1 Hw H) as (C1 & x1 & I1 & K). split; [exact C1|]. exists x1. split; [|exact K]. eapply ideal_cons; [exact I1|]. right.
      split; [|auto]. intros ->. destruct out; try contradiction.
Qed.
Lemma outer c : forall s st out st1 e, orderly c false s = true -> catching st = false -> exec c s st = (out, st1, e) -> catching st1 = false /\ exists x, ideal1 c s x e /\ of_outcome out x.
Proof.
  intros s. induction s as [k|t v| | |b Hb|e0 b Hb] using stmt_all; intros st out st1 e Ho Hw H; cbn [exec] in H.
  - injection H as <- <- <-. split; [exact Hw|]. exists IEnd. split; [constructor | exact I].
  - unfold throw in H. rewrite Hw in H. injection H as <- <- <-. split; [reflexivity|]. exists (IThrow t v). split; [constructor | split; reflexivity].
  - injection H as <- <- <-. split; [exact Hw|]. exists (if c then IEnd else ILeft). split; [constructor|]. destruct c; exact I.
  - injection H as <- <- <-. split; [exact Hw|]. exists IReturn. split; [constructor | exact I].
  - cbn in Ho. apply andb_prop in Ho as [O1 _].
    destruct (in_order (exec c) b st) as [[o2 st2] e2] eqn:E.
    destruct (outer_code c _ b (fun s Hs => Hs) Hb _ _ _ _ O1 Hw E) as (C1 & x & I1 & K).
    destruct o2, x; try contradiction; injection H as <- <- <-; (split; [exact C1|]).
    + exists IEnd. split; [exact (i1_try c b IEnd _ I1) | exact I].
    + exists ILeft. split; [exact (i1_try c b ILeft _ I1) | exact I].
    + exists IReturn. split; [exact (i1_try c b IReturn _ I1) | exact I].
    + exists IEnd. split; [exact (i1_try c b (IThrow _ _) _ I1) | exact I].
  - cbn in Ho. destruct (in_order (exec c) b (enter st)) as [[o2 st2] e2] eqn:E.
    assert (Hw1 : within (frames st) (enter st)) by (split; reflexivity).
    assert (All : Forall (fun _ => True) b) by (apply Forall_forall; auto).
    destruct (inner_code c (frames st) _ b (fun s _ => inner c (frames st) s) All _ _ _ _ Ho Hw1 E) as (x & I1 & K).
    assert (exists th, threw x th /\ thrown st2 = th /\ (let '(out, s1, ev) := check_catch c e0 st2 in (out, s1, e2 ++ ev)) = (out, st1, e)) as (th & T1 & T2 & T3).
    { destruct K as [(-> & -> & ->) | (-> & t & v & -> & T & _)].
      - exists None. split; [constructor|]. split; [reflexivity|]. exact H.
      - exists (Some (t, v)). split; [constructor|]. split; [exact T|]. cbn [leave] in H. rewrite N.eqb_refl in H. exact H. }
    unfold check_catch in T3. injection T3 as <- <- <-. rewrite T2. split; [reflexivity|].
    eexists. split; [exact (i1_catch c e0 b x th e2 I1 T1)|]. unfold failing. destruct (complaint e0 th); [destruct c|]; exact I.
Qed.
Lemma run_ideal c b st out st1 e : forallb (orderly c false) b = true -> catching st = false -> run_code c b st = (out, st1, e) -> catching st1 = false /\ exists x, ideal c b x e /\ of_outcome out x.
Proof. apply (outer_code c (fun _ => True) b (fun s _ => outer c s)). apply Forall_forall. auto. Qed.
Lemma cases_ideal c : forall cs st, Forall (fun b => forallb (orderly c false) b = true) cs -> catching st = false -> exists es, run_cases c cs st = Some es /\ ideals c cs es.
Proof.
  induction cs as [|b r IH]; intros st Ho Hc; [exists []; split; [reflexivity | constructor]|].
  inversion Ho as [|? ? O1 O2]. subst. cbn. destruct (run_code c b st) as [[out st1] e] eqn:E.
  destruct (run_ideal c b _ _ _ _ O1 Hc E) as (C1 & x & I1 & K). destruct (IH st1 O2 C1) as (es & R & Is). rewrite R.
  destruct out, x; try contradiction.
  - exists (e :: es). split; [reflexivity|]. eapply ids_other; eauto. discriminate.
  - exists (e :: es). split; [reflexivity|]. eapply ids_other; eauto. discriminate.
  - exists (e :: es). split; [reflexivity|]. eapply ids_other; eauto. discriminate.
  - destruct K as [<- <-]. exists ((e ++ [Uncaught t]) :: es). split; [reflexivity|]. eapply ids_uncaught; eauto.
Qed.

(* the ideal run is one *)
Lemma threw_one x th th1 : threw x th -> threw x th1 -> th = th1.
Proof. intros H1 H2. destruct H1; inversion H2; reflexivity. Qed.
Lemma because_one e th w w1 : because e th w -> because e th w1 -> w = w1.
Proof. intros H1 H2. apply complaint_some in H1, H2. congruence. Qed.
Lemma ideal_one c : forall b x ev, ideal c b x ev -> forall y ev1, ideal c b y ev1 -> x = y /\ ev = ev1.
Proof.
  induction 1; intros y0 ev1 K; inversion K; subst; clear K; try (split; congruence);
    repeat match goal with
      | IH : forall y ev1, ideal ?c0 ?b y ev1 -> _, H : ideal ?c0 ?b _ _ |- _ => destruct (IH _ _ H); clear H
    end; subst; try discriminate; try (split; congruence);
    repeat match goal with
      | H : _ \/ _ |- _ => destruct H; subst; try discriminate
      | H1 : threw ?x _, H2 : threw ?x _ |- _ => rewrite (threw_one _ _ _ H1 H2) in *; clear H1
      | H1 : because ?e ?t _, H2 : because ?e ?t _ |- _ => rewrite (because_one _ _ _ _ H1 H2) in *; clear H1
      | H1 : ~ ?A, H2 : ?A |- _ => contradiction
      | H : threw ILeft _ |- _ => inversion H
      | H : threw IReturn _ |- _ => inversion H
    end; try (split; congruence).
Qed.
Lemma ideals_one c : forall cs es, ideals c cs es -> forall es1, ideals c cs es1 -> es = es1.
Proof.
  induction 1 as [|b r t v ev es Hi Hs IH|b r x ev es Hi Hx Hs IH]; intros es1 K; inversion K; subst; auto.
  - destruct (ideal_one _ _ _ _ Hi _ _ H1) as [E1 E2]. injection E1 as <- <-. rewrite E2. f_equal. auto.
  - destruct (ideal_one _ _ _ _ Hi _ _ H1) as [E1 E2]. exfalso. eapply H2. symmetry. exact E1.
  - destruct (ideal_one _ _ _ _ Hi _ _ H1) as [E1 E2]. exfalso. eapply Hx. exact E1.
  - destruct (ideal_one _ _ _ _ Hi _ _ H1) as [E1 E2]. rewrite E2. f_equal. auto.
Qed.
Lemma cases_exactly c cs : Forall (fun b => forallb (orderly c false) b = true) cs -> forall es, run_cases c cs start = Some es <-> ideals c cs es.
Proof.
  intros Ho es. destruct (cases_ideal c cs start Ho eq_refl) as (es1 & R & Is). split.
  - intros H. assert (es = es1) as -> by congruence. exact Is.
  - intros H. rewrite R. f_equal. eapply ideals_one; eauto.
Qed.
Lemma cases_defined c cs : Forall (fun b => forallb (orderly c false) b = true) cs -> exists es, run_cases c cs start = Some es.
Proof. intros Ho. destruct (cases_ideal c cs start Ho eq_refl) as (es1 & R & _). eauto. Qed.
Lemma catch_verdict c e b x th ev r : forallb (orderly c true) b = true -> ideal c b x ev -> threw x th ->
  (accepted e th -> exists ev2, snd (run_code c (CCatch e b :: r) start) = ev ++ Verdict None :: ev2) /\
  (~ accepted e th -> exists w ev2, because e th w /\ snd (run_code c (CCatch e b :: r) start) = ev ++ Verdict (Some w) :: ev2).
Proof.
  intros Ho Hi Ht.
  assert (O1 : orderly c false (CCatch e b) = true) by exact Ho.
  destruct (exec c (CCatch e b) start) as [[o1 s1] e1] eqn:E1.
  destruct (outer c _ start _ _ _ O1 eq_refl E1) as (_ & x1 & I1 & _).
  assert (He : e1 = ev ++ [Verdict (complaint e th)]).
  { inversion I1 as [| | | | |e2 b2 y th2 ev2 Hb2 Ht2|e2 b2 y ev2 Hb2 Hy2]; subst.
    - destruct (ideal_one _ _ _ _ Hi _ _ Hb2) as [-> ->]. rewrite (threw_one _ _ _ Ht Ht2). reflexivity.
    - destruct (ideal_one _ _ _ _ Hi _ _ Hb2) as [-> ->]. destruct Hy2 as [-> | ->]; inversion Ht. }
  assert (Hs : exists ev2, snd (run_code c (CCatch e b :: r) start) = e1 ++ ev2).
  { unfold run_code. cbn [in_order]. fold (in_order (exec c)). rewrite E1. destruct o1; try (exists []; rewrite app_nil_r; reflexivity).
    destruct (in_order (exec c) r s1) as [[o3 s3] e3]. exists e3. reflexivity. }
  destruct Hs as [ev2 Hs]. rewrite Hs, He, <- app_assoc. cbn. split.
  - intros A. apply complaint_none in A. rewrite A. eauto.
  - intros A. destruct (complaint e th) as [w|] eqn:E; [exists w, ev2; split; [apply complaint_some; exact E | reflexivity]|].
    apply complaint_none in E. contradiction.
Qed.
