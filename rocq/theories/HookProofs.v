From Coq Require Import List NArith Bool Arith Lia.
From Verif Require Import HookModel HookSpec.
Import ListNotations.
Local Open Scope N_scope.

(* induction over statements with their lists *)
Lemma stmt_all (P : stmt -> Prop) :
  (forall k, P (SAlloc k)) -> (forall k, P (SFree k)) -> P SHelp -> P SFail -> P SThrow ->
  (forall b, Forall P b -> P (STry b)) -> (forall l u n b, Forall P b -> P (SBlock l u n b)) -> forall s, P s.
Proof.
  intros H1 H2 H3 H4 H5 H6 H7.
  fix rec 1. intros [k|k| | | |b|l u n b]; [apply H1 | apply H2 | exact H3 | exact H4 | exact H5 | |].
  - apply H6. induction b as [|x b IH]; constructor; [apply rec | exact IH].
  - apply H7. induction b as [|x b IH]; constructor; [apply rec | exact IH].
Qed.

(* the first statement of a list, and the end of a block *)
Lemma in_order_step f s r st out st2 e : in_order f (s :: r) st = (out, st2, e) ->
  (exists st1 e1 e2, f s st = (Normal, st1, e1) /\ in_order f r st1 = (out, st2, e2) /\ e = e1 ++ e2) \/ (out <> Normal /\ f s st = (out, st2, e)).
Proof.
  intros H. cbn in H. fold (in_order f) in H. destruct (f s st) as [[o1 st1] e1] eqn:E. destruct o1.
  - left. destruct (in_order f r st1) as [[o3 st3] e3] eqn:E3. injection H as <- <- <-. eauto 8.
  - right. injection H as <- <- <-. split; [discriminate | reflexivity].
  - right. injection H as <- <- <-. split; [discriminate | reflexivity].
  - right. injection H as <- <- <-. split; [discriminate | reflexivity].
Qed.
Lemma leave_cases o u out st1 e out2 st2 e2 : leave o u (out, st1, e) = (out2, st2, e2) ->
  ((out = Jumped \/ out = Broken) /\ out2 = out /\ st2 = st1 /\ e2 = e)
  \/ ((out = Normal \/ out = Thrown) /\ scopes st1 = [] /\ out2 = Broken /\ st2 = st1 /\ e2 = e)
  \/ ((out = Normal \/ out = Thrown) /\ exists s r, scopes st1 = s :: r /\ e2 = e ++ [Ended (s_label s) (unreleased s)] /\
      let st' := mkstate (overrides st1) (installed st1) r in
      ((out2 = out /\ st2 = if u then hook o true st' else st') \/ (out2 = Jumped /\ st2 = st' /\ unreleased s <> []))).
Proof.
  intros H. assert (D : (out = Jumped \/ out = Broken) \/ (out = Normal \/ out = Thrown)) by (destruct out; auto).
  destruct D as [D|D].
  - left. destruct D as [-> | ->]; cbn in H; injection H as <- <- <-; auto.
  - right. assert (H1 : match pop st1 with
      | None => (Broken, st1, e)
      | Some (st2, l, ks) =>
          match (match ks with [] => Normal | _ => failing o (o_leak_warning o) end) with
          | Normal => (out, if u then hook o true st2 else st2, e ++ [Ended l ks])
          | other => (other, st2, e ++ [Ended l ks])
          end
      end = (out2, st2, e2)) by (destruct D as [-> | ->]; exact H).
    clear H. unfold pop in H1. destruct (scopes st1) as [|s r].
    + left. injection H1 as <- <- <-. auto.
    + right. split; [exact D|]. exists s, r. split; [reflexivity|].
      destruct (unreleased s) as [|k ks].
      * injection H1 as <- <- <-. cbn. auto.
      * unfold failing in H1. destruct (o_continue o || o_leak_warning o); injection H1 as <- <- <-; split; auto; cbn; auto.
        right. repeat split; discriminate.
Qed.

(* the switch *)
Definition coherent (o : opts) (st : state) : Prop :=
  if o_check o then installed st = (if overrides st then 1 else 0)%nat else installed st = 0%nat.
Definition set_to (w : bool) (st : state) : Prop := overrides st = w /\ installed st = (if w then 1 else 0)%nat.

Lemma hook_coherent o b st : coherent o st -> coherent o (hook o b st).
Proof.
  unfold coherent, hook. destruct (o_check o); [|auto]. intros H. cbn. destruct b, (overrides st); cbn; rewrite ?H; auto.
Qed.
Lemma hook_set o b st : o_check o = true -> coherent o st -> set_to b (hook o b st).
Proof.
  unfold coherent, hook, set_to. intros -> H. cbn. split; [reflexivity|]. destruct b, (overrides st); cbn; rewrite ?H; auto.
Qed.
Lemma set_coherent o w st : o_check o = true -> set_to w st -> coherent o st.
Proof. unfold coherent, set_to. intros -> [-> ->]. reflexivity. Qed.
Lemma hook_scopes o b st : scopes (hook o b st) = scopes st.
Proof. unfold hook. destruct (o_check o); reflexivity. Qed.
Lemma set_watching w st : set_to w st -> watching st = w.
Proof. intros [_ H]. unfold watching. rewrite H. destruct w; reflexivity. Qed.
Lemma set_same w st st1 : set_to w st -> overrides st1 = overrides st -> installed st1 = installed st -> set_to w st1.
Proof. unfold set_to. intros [A B] -> ->. auto. Qed.

Lemma add_piece_switch k st : overrides (add_piece k st) = overrides st /\ installed (add_piece k st) = installed st.
Proof. unfold add_piece. destruct (scopes st); auto. Qed.
Lemma add_piece_labels k st : map s_label (scopes (add_piece k st)) = map s_label (scopes st).
Proof. unfold add_piece. destruct (scopes st) as [|s r] eqn:E; [rewrite E; reflexivity|reflexivity]. Qed.
Lemma release_labels k ss ss1 f : release k ss = Some (ss1, f) -> map s_label ss1 = map s_label ss.
Proof.
  revert ss1. induction ss as [|s r IH]; intros ss1 H; [discriminate|]. cbn in H.
  destruct (mark k (s_pieces s)) as [[ps f1]|].
  - injection H as <- <-. reflexivity.
  - destruct (release k r) as [[rr f1]|] eqn:E; [|discriminate]. cbn in H. injection H as <- <-. cbn. f_equal. exact (IH rr eq_refl).
Qed.

(* what every step keeps is kept by code *)
Record kept (o : opts) (Q : state -> Prop) : Prop := {
  kept_hook : forall b st, Q st -> Q (hook o b st);
  kept_push : forall l n st, Q st -> Q (push l n st);
  kept_pop : forall s r st, scopes st = s :: r -> Q st -> Q (mkstate (overrides st) (installed st) r);
  kept_add : forall k st, watching st = true -> Q st -> Q (add_piece k st);
  kept_release : forall k ss f st, watching st = true -> release k (scopes st) = Some (ss, f) -> Q st -> Q (mkstate (overrides st) (installed st) ss) }.
Lemma exec_keeps o Q : kept o Q -> forall s st out st1 e, Q st -> exec o s st = (out, st1, e) -> Q st1.
Proof.
  intros K s. induction s as [k|k| | | |b Hb|l u n b Hb] using stmt_all; intros st out st1 e Hc H; cbn [exec] in H.
  - destruct (watching st) eqn:W; injection H as <- <- <-; auto. apply (kept_add o Q K); auto.
  - destruct (watching st) eqn:W.
    + destruct (release k (scopes st)) as [[ss [|]]|] eqn:E; injection H as <- <- <-; auto; eapply (kept_release o Q K); eauto.
    + destruct (ours k st); injection H as <- <- <-; auto.
  - injection H as <- <- <-. auto using (kept_hook o Q K).
  - injection H as <- <- <-. auto.
  - injection H as <- <- <-. auto using (kept_hook o Q K).
  - assert (L : forall st out st1 e, Q st -> in_order (exec o) b st = (out, st1, e) -> Q st1).
    { clear - Hb. induction Hb as [|x r Hx Hr IH]; intros st out st1 e Hq H; [injection H as <- <- <-; auto|].
      apply in_order_step in H as [(st3 & e1 & e2 & H1 & H2 & ->) | [_ H]]; eauto. }
    destruct (in_order (exec o) b st) as [[o2 st2] e2] eqn:E. assert (Q2 : Q st2) by eauto.
    destruct o2; injection H as <- <- <-; auto.
  - assert (L : forall st out st1 e, Q st -> in_order (exec o) b st = (out, st1, e) -> Q st1).
    { clear - Hb. induction Hb as [|x r Hx Hr IH]; intros st out st1 e Hq H; [injection H as <- <- <-; auto|].
      apply in_order_step in H as [(st3 & e1 & e2 & H1 & H2 & ->) | [_ H]]; eauto. }
    destruct (in_order (exec o) b _) as [[o2 st2] e2] eqn:E.
    assert (Q2 : Q st2) by (eapply L; [|exact E]; apply (kept_push o Q K); destruct u; auto using (kept_hook o Q K)).
    apply leave_cases in H as [(_ & -> & -> & ->) | [(_ & _ & -> & -> & ->) | (_ & s & r & E1 & -> & H)]]; auto.
    assert (Q (mkstate (overrides st2) (installed st2) r)) by (eapply (kept_pop o Q K); eauto).
    destruct H as [[-> ->] | (-> & -> & _)]; auto. destruct u; auto using (kept_hook o Q K).
Qed.
Lemma code_keeps o Q : kept o Q -> forall b st out st1 e, Q st -> run_code o b st = (out, st1, e) -> Q st1.
Proof.
  intros K. induction b as [|x r IH]; intros st out st1 e Hq H; [injection H as <- <- <-; auto|].
  apply in_order_step in H as [(st3 & e1 & e2 & H1 & H2 & ->) | [_ H]]; [eapply IH; [|exact H2]|]; eapply (exec_keeps o Q K); eauto.
Qed.
Lemma case_keeps o Q : kept o Q -> forall c st out st1 e, Q st -> run_case o c st = (out, st1, e) -> Q st1.
Proof.
  intros K c st out st1 e Hq H. unfold run_case in H.
  destruct (run_code o (c_body c) _) as [[o1 s1] e1] eqn:E1.
  assert (Q1 : Q s1) by (eapply (code_keeps o Q K); [|exact E1]; apply (kept_push o Q K); exact Hq).
  assert (H1 : (o1 = Broken /\ (Broken, s1, e1) = (out, st1, e)) \/ match run_code o (c_cleanup c) s1 with
      | (Jumped, st2, e2) | (Broken, st2, e2) => (Broken, st2, e1 ++ e2)
      | (_, st2, e2) =>
          match pop st2 with
          | None => (Broken, st2, e1 ++ e2)
          | Some (st3, l, ks) => (Normal, hook o true st3, e1 ++ e2 ++ [Ended l ks])
          end
      end = (out, st1, e)) by (destruct o1; auto).
  destruct H1 as [[_ H1] | H1]; [injection H1 as <- <- <-; auto|].
  destruct (run_code o (c_cleanup c) s1) as [[o2 s2] e2] eqn:E2.
  assert (Q2 : Q s2) by (eapply (code_keeps o Q K); [|exact E2]; auto).
  assert (H2 : (Broken, s2, e1 ++ e2) = (out, st1, e) \/ match pop s2 with
          | None => (Broken, s2, e1 ++ e2)
          | Some (st3, l, ks) => (Normal, hook o true st3, e1 ++ e2 ++ [Ended l ks])
          end = (out, st1, e)) by (destruct o2; auto).
  destruct H2 as [H2 | H2]; [injection H2 as <- <- <-; auto|].
  unfold pop in H2. destruct (scopes s2) as [|x r] eqn:E3; injection H2 as <- <- <-; auto.
  apply (kept_hook o Q K). eapply (kept_pop o Q K); eauto.
Qed.
Lemma cases_keep o Q : kept o Q -> forall cs st out st1 es, Q st -> run_cases o cs st = (out, st1, es) -> Q st1.
Proof.
  intros K. induction cs as [|c r IH]; intros st out st1 es Hq H; cbn in H; [injection H as <- <- <-; auto|].
  destruct (run_case o c st) as [[o1 s1] e1] eqn:E1. assert (Q1 : Q s1) by (eapply (case_keeps o Q K); eauto).
  destruct o1; try (injection H as <- <- <-; auto).
  destruct (run_cases o r s1) as [[o2 s2] es2] eqn:E2. injection H as <- <- <-. eauto.
Qed.

(* how a case runs *)
Lemma case_parts o c st st1 e : run_case o c st = (Normal, st1, e) ->
  exists o1 s1 e1 o2 s2 e2 x r, run_code o (c_body c) (push (c_label c) false st) = (o1, s1, e1) /\ o1 <> Broken /\
    run_code o (c_cleanup c) s1 = (o2, s2, e2) /\ (o2 = Normal \/ o2 = Thrown) /\ scopes s2 = x :: r /\
    st1 = hook o true (mkstate (overrides s2) (installed s2) r) /\ e = e1 ++ e2 ++ [Ended (s_label x) (unreleased x)].
Proof.
  intros H. unfold run_case in H. destruct (run_code o (c_body c) _) as [[o1 s1] e1] eqn:E1.
  assert (B : o1 <> Broken) by (intros ->; discriminate).
  assert (H1 : match run_code o (c_cleanup c) s1 with
      | (Jumped, st2, e2) | (Broken, st2, e2) => (Broken, st2, e1 ++ e2)
      | (_, st2, e2) =>
          match pop st2 with
          | None => (Broken, st2, e1 ++ e2)
          | Some (st3, l, ks) => (Normal, hook o true st3, e1 ++ e2 ++ [Ended l ks])
          end
      end = (Normal, st1, e)) by (destruct o1; auto; contradiction).
  clear H. destruct (run_code o (c_cleanup c) s1) as [[o2 s2] e2] eqn:E2.
  assert (H2 : (o2 = Normal \/ o2 = Thrown) /\ match pop s2 with
          | None => (Broken, s2, e1 ++ e2)
          | Some (st3, l, ks) => (Normal, hook o true st3, e1 ++ e2 ++ [Ended l ks])
          end = (Normal, st1, e)) by (destruct o2; auto; discriminate).
  destruct H2 as [D H2]. unfold pop in H2. destruct (scopes s2) as [|x r] eqn:E3; [discriminate|]. injection H2 as <- <-.
  exists o1, s1, e1, o2, s2, e2, x, r. repeat split; auto.
Qed.

(* any code keeps the switch coherent *)
Lemma coherent_kept o : kept o (coherent o).
Proof.
  split; intros; auto using hook_coherent.
  unfold coherent in *. destruct (add_piece_switch k st) as [-> ->]. assumption.
Qed.
Lemma start_coherent o : coherent o (start o).
Proof. unfold coherent, start, hook. destruct (o_check o); reflexivity. Qed.

(* memory_check off *)
Definition nothing (st : state) : Prop := installed st = 0%nat /\ Forall (fun s => s_pieces s = []) (scopes st).
Lemma nothing_kept o : o_check o = false -> kept o nothing.
Proof.
  intros Ho. split.
  - intros b st. unfold hook. rewrite Ho. auto.
  - intros l n st [A B]. split; [exact A|]. constructor; auto.
  - intros s r st E [A B]. split; [exact A|]. cbn. rewrite E in B. inversion B; assumption.
  - intros k st W [A _]. unfold watching in W. rewrite A in W. discriminate.
  - intros k ss f st W _ [A _]. unfold watching in W. rewrite A in W. discriminate.
Qed.
Lemma start_nothing o : o_check o = false -> nothing (start o).
Proof. intros H. unfold start, hook. rewrite H. split; [reflexivity|]. repeat constructor. Qed.
Lemma unreleased_nothing s r st : nothing st -> scopes st = s :: r -> unreleased s = [].
Proof. intros [_ B] E. rewrite E in B. inversion B as [|x y Hx Hy]. unfold unreleased. rewrite Hx. destruct (s_noleak s); reflexivity. Qed.
Lemma exec_silent o : o_check o = false -> forall s st out st1 e, nothing st -> exec o s st = (out, st1, e) -> Forall silent e.
Proof.
  intros Ho s. induction s as [k|k| | | |b Hb|l u n b Hb] using stmt_all; intros st out st1 e Hc H; cbn [exec] in H.
  - assert (W : watching st = false) by (unfold watching; destruct Hc as [-> _]; reflexivity). rewrite W in H. injection H as <- <- <-.
    constructor; [left; eauto | constructor].
  - assert (W : watching st = false) by (unfold watching; destruct Hc as [-> _]; reflexivity). rewrite W in H.
    destruct (ours k st); injection H as <- <- <-; constructor.
  - injection H as <- <- <-. constructor.
  - injection H as <- <- <-. constructor.
  - injection H as <- <- <-. constructor.
  - assert (L : forall st out st1 e, nothing st -> in_order (exec o) b st = (out, st1, e) -> Forall silent e).
    { clear - Hb Ho. induction Hb as [|x r Hx Hr IH]; intros st out st1 e Hq H; [injection H as <- <- <-; constructor|].
      apply in_order_step in H as [(st3 & e1 & e2 & H1 & H2 & ->) | [_ H]]; eauto. apply Forall_app. split; [eauto|].
      eapply IH; [|exact H2]. eapply (exec_keeps o nothing (nothing_kept o Ho)); eauto. }
    destruct (in_order (exec o) b st) as [[o2 st2] e2] eqn:E. apply L in E; [|exact Hc]. destruct o2; injection H as <- <- <-; auto.
  - assert (L : forall st out st1 e, nothing st -> in_order (exec o) b st = (out, st1, e) -> Forall silent e).
    { clear - Hb Ho. induction Hb as [|x r Hx Hr IH]; intros st out st1 e Hq H; [injection H as <- <- <-; constructor|].
      apply in_order_step in H as [(st3 & e1 & e2 & H1 & H2 & ->) | [_ H]]; eauto. apply Forall_app. split; [eauto|].
      eapply IH; [|exact H2]. eapply (exec_keeps o nothing (nothing_kept o Ho)); eauto. }
    pose proof (nothing_kept o Ho) as K.
    destruct (in_order (exec o) b _) as [[o2 st2] e2] eqn:E.
    assert (Hn : nothing (push l n (if u then hook o false st else st))) by (apply (kept_push o nothing K); destruct u; auto using (kept_hook o nothing K)).
    assert (Hn2 : nothing st2) by (eapply (code_keeps o nothing K); [exact Hn | exact E]).
    apply L in E; [|exact Hn].
    apply leave_cases in H as [(_ & -> & -> & ->) | [(_ & _ & -> & -> & ->) | (_ & s & r & E1 & -> & H)]]; auto.
    apply Forall_app. split; [exact E|]. constructor; [|constructor]. right. exists (s_label s). f_equal. eapply unreleased_nothing; eauto.
Qed.
Lemma code_silent o : o_check o = false -> forall b st out st1 e, nothing st -> run_code o b st = (out, st1, e) -> Forall silent e.
Proof.
  intros Ho. induction b as [|x r IH]; intros st out st1 e Hq H; [injection H as <- <- <-; constructor|].
  apply in_order_step in H as [(st3 & e1 & e2 & H1 & H2 & ->) | [_ H]]; [|eapply exec_silent; eauto].
  apply Forall_app. split; [eapply exec_silent; eauto|]. eapply IH; [|exact H2]. eapply (exec_keeps o nothing (nothing_kept o Ho)); eauto.
Qed.
Lemma case_silent o : o_check o = false -> forall c st out st1 e, nothing st -> run_case o c st = (out, st1, e) -> Forall silent e.
Proof.
  intros Ho c st out st1 e Hn H. pose proof (nothing_kept o Ho) as K. unfold run_case in H.
  destruct (run_code o (c_body c) _) as [[o1 s1] e1] eqn:E1.
  assert (Hp : nothing (push (c_label c) false st)) by (apply (kept_push o nothing K); auto).
  assert (H1 := code_silent o Ho _ _ _ _ _ Hp E1). assert (N1 := code_keeps o nothing K _ _ _ _ _ Hp E1).
  destruct (run_code o (c_cleanup c) s1) as [[o2 s2] e2] eqn:E2.
  assert (H2 := code_silent o Ho _ _ _ _ _ N1 E2). assert (N2 := code_keeps o nothing K _ _ _ _ _ N1 E2).
  unfold pop in H.
  destruct (scopes s2) as [|x r] eqn:E3.
  - destruct o1, o2; injection H as <- <- <-; try assumption; apply Forall_app; auto.
  - assert (U := unreleased_nothing x r s2 N2 E3). rewrite U in H.
    assert (Forall silent [Ended (s_label x) []]) by (constructor; [right; eauto | constructor]).
    destruct o1, o2; injection H as <- <- <-; try assumption; rewrite ?Forall_app; auto.
Qed.
Lemma cases_silent o : o_check o = false -> forall cs st out st1 es, nothing st -> run_cases o cs st = (out, st1, es) -> Forall (Forall silent) es.
Proof.
  intros Ho. induction cs as [|c r IH]; intros st out st1 es Hn H; cbn in H; [injection H as <- <- <-; constructor|].
  destruct (run_case o c st) as [[o1 s1] e1] eqn:E1. assert (H1 := case_silent o Ho _ _ _ _ _ Hn E1).
  assert (N1 := case_keeps o nothing (nothing_kept o Ho) _ _ _ _ _ Hn E1).
  destruct o1; try (injection H as <- <- <-; repeat constructor; auto).
  destruct (run_cases o r s1) as [[o2 s2] es2] eqn:E2. injection H as <- <- <-. constructor; eauto.
Qed.

(* the labels of the scopes *)
Definition labels (st : state) : list N := map s_label (scopes st).
Lemma exec_labels o : forall s st out st1 e, exec o s st = (out, st1, e) ->
  exists stale, labels st1 = stale ++ labels st /\ (out = Normal \/ out = Thrown \/ blocks s = [] -> stale = []).
Proof.
  intros s. induction s as [k|k| | | |b Hb|l u n b Hb] using stmt_all; intros st out st1 e H; cbn [exec] in H.
  - exists []. split; [|auto]. destruct (watching st); injection H as <- <- <-; [apply add_piece_labels | reflexivity].
  - exists []. split; [|auto]. destruct (watching st).
    + destruct (release k (scopes st)) as [[ss [|]]|] eqn:E; injection H as <- <- <-; [| |reflexivity]; exact (release_labels _ _ _ _ E).
    + destruct (ours k st); injection H as <- <- <-; reflexivity.
  - exists []. injection H as <- <- <-. unfold labels. rewrite !hook_scopes. auto.
  - exists []. injection H as <- <- <-. auto.
  - exists []. injection H as <- <- <-. unfold labels. rewrite !hook_scopes. auto.
  - assert (L : forall st out st1 e, in_order (exec o) b st = (out, st1, e) -> exists stale, labels st1 = stale ++ labels st /\ (out = Normal \/ out = Thrown \/ flat_map blocks b = [] -> stale = [])).
    { clear - Hb. induction Hb as [|x r Hx Hr IH]; intros st out st1 e H; [injection H as <- <- <-; exists []; auto|].
      apply in_order_step in H as [(st3 & e1 & e2 & H1 & H2 & ->) | [Hn H]].
      - apply Hx in H1 as (t1 & L1 & K1). apply IH in H2 as (t2 & L2 & K2). rewrite K1 in L1 by auto. exists t2. rewrite L2, L1. split; [reflexivity|].
        intros [A | [A | A]]; apply K2; auto. cbn in A. apply app_eq_nil in A as [_ A]. auto.
      - apply Hx in H as (t1 & L1 & K1). exists t1. split; [exact L1|]. intros [A | [A | A]]; apply K1; auto. cbn in A. apply app_eq_nil in A as [A _]. auto. }
    destruct (in_order (exec o) b st) as [[o2 st2] e2] eqn:E. apply L in E as (t & L1 & K1). exists t.
    destruct o2; injection H as <- <- <-; split; auto.
  - assert (L : forall st out st1 e, in_order (exec o) b st = (out, st1, e) -> exists stale, labels st1 = stale ++ labels st /\ (out = Normal \/ out = Thrown -> stale = [])).
    { clear - Hb. induction Hb as [|x r Hx Hr IH]; intros st out st1 e H; [injection H as <- <- <-; exists []; auto|].
      apply in_order_step in H as [(st3 & e1 & e2 & H1 & H2 & ->) | [Hn H]].
      - apply Hx in H1 as (t1 & L1 & K1). apply IH in H2 as (t2 & L2 & K2). rewrite K1 in L1 by auto. exists t2. rewrite L2, L1. auto.
      - apply Hx in H as (t1 & L1 & K1). exists t1. split; [exact L1|]. intros [A | A]; apply K1; auto. }
    destruct (in_order (exec o) b _) as [[o2 st2] e2] eqn:E. apply L in E as (t & L1 & K1).
    assert (P1 : labels (push l n (if u then hook o false st else st)) = l :: labels st) by (destruct u; unfold labels, push; cbn; rewrite ?hook_scopes; reflexivity).
    rewrite P1 in L1.
    apply leave_cases in H as [(D & -> & -> & ->) | [(D & Z & -> & -> & ->) | (D & s & r & E1 & -> & H)]].
    + exists (t ++ [l]). rewrite <- app_assoc. split; [exact L1|]. intros [A | [A | A]]; [destruct D; congruence | destruct D; congruence | discriminate].
    + exfalso. unfold labels in L1 at 1. rewrite Z in L1. cbn in L1. destruct t; discriminate.
    + rewrite K1 in L1 by exact D. unfold labels in L1 at 1. rewrite E1 in L1. cbn in L1. injection L1 as Hl Hr.
      exists []. split; [|auto]. cbn. destruct H as [[-> ->] | (-> & -> & _)]; [|exact Hr]. destruct u; unfold labels; rewrite ?hook_scopes; exact Hr.
Qed.
Lemma code_labels o : forall b st out st1 e, run_code o b st = (out, st1, e) ->
  exists stale, labels st1 = stale ++ labels st /\ (out = Normal \/ out = Thrown \/ flat_map blocks b = [] -> stale = []).
Proof.
  induction b as [|x r IH]; intros st out st1 e H; [injection H as <- <- <-; exists []; auto|].
  apply in_order_step in H as [(st3 & e1 & e2 & H1 & H2 & ->) | [Hn H]].
  - apply exec_labels in H1 as (t1 & L1 & K1). apply IH in H2 as (t2 & L2 & K2). rewrite K1 in L1 by auto. exists t2. rewrite L2, L1. split; [reflexivity|].
    intros [A | [A | A]]; apply K2; auto. cbn in A. apply app_eq_nil in A as [_ A]. auto.
  - apply exec_labels in H as (t1 & L1 & K1). exists t1. split; [exact L1|]. intros [A | [A | A]]; apply K1; auto. cbn in A. apply app_eq_nil in A as [A _]. auto.
Qed.
