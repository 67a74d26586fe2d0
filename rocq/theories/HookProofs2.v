From Coq Require Import List NArith Bool Arith Lia.
From Verif Require Import HookModel HookSpec HookProofs.
Import ListNotations.
Local Open Scope N_scope.

(* within UNMEM calm code sees nothing and changes no scope *)
Lemma inside o (Ho : o_check o = true) : forall s l st out st1 e, calm true s = true -> set_to false st -> exec o s st = (out, st1, e) ->
  (forall k x, In (Seen k x) e -> In (k, x) (places false l s)) /\ (out = Normal \/ out = Broken) /\
  (out = Normal -> set_to false st1 /\ scopes st1 = scopes st).
Proof.
  intros s. induction s as [k|k| | | |b Hb|l1 u n b Hb] using stmt_all; intros l st out st1 e Hc Hw H; cbn [exec] in H.
  - rewrite (set_watching _ _ Hw) in H. injection H as <- <- <-. repeat split; auto; try apply Hw.
    intros k1 x [[= -> <-]|[]]. left. reflexivity.
  - rewrite (set_watching _ _ Hw) in H. destruct (ours k st); injection H as <- <- <-; (split; [intros k1 x []|]); (split; [auto|]); try discriminate. auto.
  - discriminate.
  - discriminate.
  - discriminate.
  - cbn in Hc.
    assert (L : forall st out st1 e, set_to false st -> in_order (exec o) b st = (out, st1, e) ->
      (forall k x, In (Seen k x) e -> In (k, x) (flat_map (places false l) b)) /\ (out = Normal \/ out = Broken) /\ (out = Normal -> set_to false st1 /\ scopes st1 = scopes st)).
    { clear - Hb Ho Hc. induction Hb as [|x r Hx Hr IH]; intros st out st1 e Hq H; [injection H as <- <- <-; repeat split; auto; try apply Hq; intros k x []|].
      cbn in Hc. apply andb_prop in Hc as [Hc1 Hc2].
      apply in_order_step in H as [(st3 & e1 & e2 & H1 & H2 & ->) | [Hn H]].
      - destruct (Hx l _ _ _ _ Hc1 Hq H1) as (A1 & A2 & A3). destruct (A3 eq_refl) as [A4 A5].
        destruct (IH Hc2 _ _ _ _ A4 H2) as (B1 & B2 & B3). split; [|split; [exact B2|]].
        + intros k y Hi. cbn. apply in_or_app. apply in_app_or in Hi as [Hi|Hi]; auto.
        + intros E. destruct (B3 E). split; [assumption | congruence].
      - destruct (Hx l _ _ _ _ Hc1 Hq H) as (A1 & A2 & A3). split; [|split; [exact A2 | contradiction]].
        intros k y Hi. cbn. apply in_or_app. auto. }
    destruct (in_order (exec o) b st) as [[o2 st2] e2] eqn:E. destruct (L _ _ _ _ Hw E) as (A1 & A2 & A3).
    destruct A2 as [-> | ->]; injection H as <- <- <-; auto.
  - cbn in Hc. destruct u; [discriminate|]. cbn in Hc.
    assert (L : forall st out st1 e, set_to false st -> in_order (exec o) b st = (out, st1, e) ->
      (forall k x, In (Seen k x) e -> In (k, x) (flat_map (places false l1) b)) /\ (out = Normal \/ out = Broken) /\ (out = Normal -> set_to false st1 /\ scopes st1 = scopes st)).
    { clear - Hb Ho Hc. induction Hb as [|x r Hx Hr IH]; intros st out st1 e Hq H; [injection H as <- <- <-; repeat split; auto; try apply Hq; intros k x []|].
      cbn in Hc. apply andb_prop in Hc as [Hc1 Hc2].
      apply in_order_step in H as [(st3 & e1 & e2 & H1 & H2 & ->) | [Hn H]].
      - destruct (Hx l1 _ _ _ _ Hc1 Hq H1) as (A1 & A2 & A3). destruct (A3 eq_refl) as [A4 A5].
        destruct (IH Hc2 _ _ _ _ A4 H2) as (B1 & B2 & B3). split; [|split; [exact B2|]].
        + intros k y Hi. cbn. apply in_or_app. apply in_app_or in Hi as [Hi|Hi]; auto.
        + intros E. destruct (B3 E). split; [assumption | congruence].
      - destruct (Hx l1 _ _ _ _ Hc1 Hq H) as (A1 & A2 & A3). split; [|split; [exact A2 | contradiction]].
        intros k y Hi. cbn. apply in_or_app. auto. }
    destruct (in_order (exec o) b (push l1 n st)) as [[o2 st2] e2] eqn:E.
    destruct (L (push l1 n st) _ _ _ Hw E) as (A1 & A2 & A3).
    apply leave_cases in H as [(D & -> & -> & ->) | [(D & Z & -> & -> & ->) | (D & s & r & E1 & -> & H)]].
    + split; [exact A1|]. split; [exact A2|]. destruct D; congruence.
    + split; [exact A1|]. split; [auto|]. discriminate.
    + assert (o2 = Normal) as -> by (destruct D, A2; congruence). destruct (A3 eq_refl) as [A4 A5].
      rewrite A5 in E1. cbn in E1. injection E1 as <- <-.
      assert (U : unreleased (mkscope l1 n []) = []) by (destruct n; reflexivity).
      split; [|]. { intros k x Hi. apply in_app_or in Hi as [Hi | [Hi|[]]]; [exact (A1 _ _ Hi) | discriminate]. }
      destruct H as [[-> ->] | (_ & _ & H)]; [|contradiction]. split; [auto|]. intros _. split; [|reflexivity]. exact A4.
Qed.
Lemma inside_code o (Ho : o_check o = true) : forall b l st out st1 e, forallb (calm true) b = true -> set_to false st -> run_code o b st = (out, st1, e) ->
  (forall k x, In (Seen k x) e -> In (k, x) (flat_map (places false l) b)) /\ (out = Normal \/ out = Broken) /\
  (out = Normal -> set_to false st1 /\ scopes st1 = scopes st).
Proof.
  intros b l st out st1 e Hc Hw H.
  assert (E : exec o (STry b) st = match run_code o b st with (Thrown, st1, e) => (Normal, st1, e) | other => other end) by reflexivity.
  rewrite H in E. destruct out; try (apply (inside o Ho (STry b) l _ _ _ _ Hc Hw) in E; exact E).
  (* an exception within UNMEM *)
  exfalso. clear E. revert st st1 e Hw H. induction b as [|x r IH]; intros st st1 e Hw H; [discriminate|].
  cbn in Hc. apply andb_prop in Hc as [Hc1 Hc2].
  apply in_order_step in H as [(st3 & e1 & e2 & H1 & H2 & ->) | [Hn H]].
  - destruct (inside o Ho x l _ _ _ _ Hc1 Hw H1) as (_ & _ & A3). destruct (A3 eq_refl) as [A4 _]. eapply IH; eauto.
  - destruct (inside o Ho x l _ _ _ _ Hc1 Hw H) as (_ & [A|A] & _); discriminate.
Qed.

(* outside UNMEM *)
Lemma top_of st l r : labels st = l :: r -> top_label st = Some l.
Proof. unfold labels, top_label. destruct (scopes st); [discriminate|]. cbn. intros [= -> _]. reflexivity. Qed.
Lemma outside o (Ho : o_check o = true) : forall s l r st out st1 e, calm false s = true -> set_to true st -> labels st = l :: r -> exec o s st = (out, st1, e) ->
  (forall k x, In (Seen k x) e -> In (k, x) (places true l s)) /\ (out <> Broken -> set_to true st1).
Proof.
  intros s. induction s as [k|k| | | |b Hb|l1 u n b Hb] using stmt_all; intros l r0 st out st1 e Hc Hw Hl H; cbn [exec] in H.
  - rewrite (set_watching _ _ Hw), (top_of _ _ _ Hl) in H. injection H as <- <- <-. split.
    + intros k1 x [[= -> <-]|[]]. left. reflexivity.
    + intros _. destruct (add_piece_switch k st). eapply set_same; eauto.
  - rewrite (set_watching _ _ Hw) in H. destruct (release k (scopes st)) as [[ss [|]]|]; injection H as <- <- <-;
      (split; [intros k1 x [Hi|[]]; discriminate | intros _; exact Hw]).
  - injection H as <- <- <-. split; [intros k x []|]. intros _. apply hook_set; auto. apply hook_coherent. eapply set_coherent; eauto.
  - injection H as <- <- <-. split; [intros k x []|]. auto.
  - injection H as <- <- <-. split; [intros k x []|]. intros _. apply hook_set; auto. apply hook_coherent. eapply set_coherent; eauto.
  - cbn in Hc.
    assert (L : forall st out st1 e, set_to true st -> labels st = l :: r0 -> in_order (exec o) b st = (out, st1, e) ->
      (forall k x, In (Seen k x) e -> In (k, x) (flat_map (places true l) b)) /\ (out <> Broken -> set_to true st1)).
    { clear - Hb Ho Hc. induction Hb as [|x r Hx Hr IH]; intros st out st1 e Hq Hl H; [injection H as <- <- <-; split; auto; intros k x []|].
      cbn in Hc. apply andb_prop in Hc as [Hc1 Hc2].
      apply in_order_step in H as [(st3 & e1 & e2 & H1 & H2 & ->) | [Hn H]].
      - destruct (Hx l _ _ _ _ _ Hc1 Hq Hl H1) as (A1 & A2).
        assert (Hl3 : labels st3 = l :: r0) by (apply exec_labels in H1 as (t & T1 & T2); rewrite T2 in T1 by auto; cbn in T1; congruence).
        destruct (IH Hc2 _ _ _ _ (A2 ltac:(discriminate)) Hl3 H2) as (B1 & B2). split; [|exact B2].
        intros k y Hi. cbn. apply in_or_app. apply in_app_or in Hi as [Hi|Hi]; auto.
      - destruct (Hx l _ _ _ _ _ Hc1 Hq Hl H) as (A1 & A2). split; [|exact A2]. intros k y Hi. cbn. apply in_or_app. auto. }
    destruct (in_order (exec o) b st) as [[o2 st2] e2] eqn:E. destruct (L _ _ _ _ Hw Hl E) as (A1 & A2).
    destruct o2; injection H as <- <- <-; split; auto; try (intros _; apply A2; discriminate).
  - cbn in Hc. destruct u; cbn in Hc.
    + (* UNMEM *)
      destruct (in_order (exec o) b _) as [[o2 st2] e2] eqn:E.
      assert (Hs : set_to false (push l1 n (hook o false st))) by (eapply set_same; [apply (hook_set o false st Ho (set_coherent o true st Ho Hw)) | reflexivity | reflexivity]).
      destruct (inside_code o Ho b l1 _ _ _ _ Hc Hs E) as (A1 & A2 & A3).
      apply leave_cases in H as [(D & -> & -> & ->) | [(D & Z & -> & -> & ->) | (D & s & r & E1 & -> & H)]].
      * split; [exact A1|]. destruct D, A2; congruence.
      * split; [exact A1|]. congruence.
      * assert (o2 = Normal) as -> by (destruct D, A2; congruence). destruct (A3 eq_refl) as [A4 A5].
        rewrite A5 in E1. cbn in E1. injection E1 as <- <-.
        split. { intros k x Hi. apply in_app_or in Hi as [Hi | [Hi|[]]]; [exact (A1 _ _ Hi) | discriminate]. }
        assert (U : unreleased (mkscope l1 n []) = []) by (destruct n; reflexivity).
        destruct H as [[-> ->] | (_ & _ & H)]; [|contradiction]. intros _. apply hook_set; auto. apply (set_coherent o false); auto.
    + (* BLOCK *)
      assert (L : forall st out st1 e, set_to true st -> labels st = l1 :: l :: r0 -> in_order (exec o) b st = (out, st1, e) ->
        (forall k x, In (Seen k x) e -> In (k, x) (flat_map (places true l1) b)) /\ (out <> Broken -> set_to true st1)).
      { clear - Hb Ho Hc. induction Hb as [|x r Hx Hr IH]; intros st out st1 e Hq Hl H; [injection H as <- <- <-; split; auto; intros k x []|].
        cbn in Hc. apply andb_prop in Hc as [Hc1 Hc2].
        apply in_order_step in H as [(st3 & e1 & e2 & H1 & H2 & ->) | [Hn H]].
        - destruct (Hx l1 _ _ _ _ _ Hc1 Hq Hl H1) as (A1 & A2).
          assert (Hl3 : labels st3 = l1 :: l :: r0) by (apply exec_labels in H1 as (t & T1 & T2); rewrite T2 in T1 by auto; cbn in T1; congruence).
          destruct (IH Hc2 _ _ _ _ (A2 ltac:(discriminate)) Hl3 H2) as (B1 & B2). split; [|exact B2].
          intros k y Hi. cbn. apply in_or_app. apply in_app_or in Hi as [Hi|Hi]; auto.
        - destruct (Hx l1 _ _ _ _ _ Hc1 Hq Hl H) as (A1 & A2). split; [|exact A2]. intros k y Hi. cbn. apply in_or_app. auto. }
      destruct (in_order (exec o) b (push l1 n st)) as [[o2 st2] e2] eqn:E.
      assert (Hl1 : labels (push l1 n st) = l1 :: l :: r0) by (unfold labels, push; cbn; fold (labels st); rewrite Hl; reflexivity).
      destruct (L (push l1 n st) _ _ _ Hw Hl1 E) as (A1 & A2).
      apply leave_cases in H as [(D & -> & -> & ->) | [(D & Z & -> & -> & ->) | (D & s & r & E1 & -> & H)]].
      * split; auto.
      * split; [exact A1|]. congruence.
      * split. { intros k x Hi. apply in_app_or in Hi as [Hi | [Hi|[]]]; [exact (A1 _ _ Hi) | discriminate]. }
        assert (set_to true st2) by (apply A2; destruct D; congruence).
        destruct H as [[-> ->] | (-> & -> & _)]; auto.
Qed.
Lemma outside_code o (Ho : o_check o = true) : forall b l r st out st1 e, forallb (calm false) b = true -> set_to true st -> labels st = l :: r -> run_code o b st = (out, st1, e) ->
  (forall k x, In (Seen k x) e -> In (k, x) (flat_map (places true l) b)) /\ (out <> Broken -> set_to true st1).
Proof.
  induction b as [|x b IH]; intros l r st out st1 e Hc Hw Hl H; [injection H as <- <- <-; split; auto; intros k x []|].
  cbn in Hc. apply andb_prop in Hc as [Hc1 Hc2].
  apply in_order_step in H as [(st3 & e1 & e2 & H1 & H2 & ->) | [Hn H]].
  - destruct (outside o Ho x l _ _ _ _ _ Hc1 Hw Hl H1) as (A1 & A2).
    assert (Hl3 : labels st3 = l :: r) by (apply exec_labels in H1 as (t & T1 & T2); rewrite T2 in T1 by auto; cbn in T1; congruence).
    destruct (IH _ _ _ _ _ _ Hc2 (A2 ltac:(discriminate)) Hl3 H2) as (B1 & B2). split; [|exact B2].
    intros k y Hi. cbn. apply in_or_app. apply in_app_or in Hi as [Hi|Hi]; auto.
  - destruct (outside o Ho x l _ _ _ _ _ Hc1 Hw Hl H) as (A1 & A2). split; [|exact A2]. intros k y Hi. cbn. apply in_or_app. auto.
Qed.

(* a case: whatever the runs before it did *)
Lemma case_watched o (Ho : o_check o = true) c st out st1 e : forallb (calm false) (c_body c) = true -> forallb (calm false) (c_cleanup c) = true ->
  set_to true st -> run_case o c st = (out, st1, e) -> case_places c e.
Proof.
  intros C1 C2 Hw H. unfold run_case in H.
  destruct (run_code o (c_body c) _) as [[o1 s1] e1] eqn:E1.
  assert (Hw1 : set_to true (push (c_label c) false st)) by exact Hw.
  destruct (outside_code o Ho _ (c_label c) (labels st) _ _ _ _ C1 Hw1 eq_refl E1) as [A1 A2].
  assert (P1 : case_places c e1) by (intros k x Hi; left; auto).
  destruct (code_labels o _ _ _ _ _ E1) as (t & T1 & _).
  assert (exists l r, labels s1 = l :: r) as (l & r & Hl) by (cbn in T1; rewrite T1; destruct t; cbn; eauto).
  destruct (run_code o (c_cleanup c) s1) as [[o2 s2] e2] eqn:E2.
  assert (P2 : o1 <> Broken -> case_places c e2).
  { intros Hb. destruct (outside_code o Ho _ l r _ _ _ _ C2 (A2 Hb) Hl E2) as [B1 _]. intros k x Hi. right. eauto. }
  assert (P3 : o1 <> Broken -> case_places c (e1 ++ e2)).
  { intros Hb k x Hi. apply in_app_or in Hi as [Hi|Hi]; [exact (P1 _ _ Hi) | exact (P2 Hb _ _ Hi)]. }
  assert (P4 : o1 <> Broken -> forall y, case_places c (e1 ++ e2 ++ [Ended (fst y) (snd y)])).
  { intros Hb y k x Hi. rewrite app_assoc in Hi. apply in_app_or in Hi as [Hi|[Hi|[]]]; [exact (P3 Hb _ _ Hi) | discriminate]. }
  destruct (pop s2) as [[[s3 l3] ks]|];
    destruct o1, o2; injection H as <- <- <-; try exact P1; try (apply P3; discriminate); apply (P4 ltac:(discriminate) (l3, ks)).
Qed.
Lemma case_set o (Ho : o_check o = true) c st st1 e : coherent o st -> run_case o c st = (Normal, st1, e) -> set_to true st1.
Proof.
  intros Hc H. assert (K := coherent_kept o). apply case_parts in H as (o1 & s1 & e1 & o2 & s2 & e2 & x & r & E1 & _ & E2 & _ & E3 & -> & _).
  apply hook_set; auto. apply (kept_pop o (coherent o) K x); auto. eapply (code_keeps o _ K); [|exact E2]. eapply (code_keeps o _ K); [|exact E1]. exact Hc.
Qed.
Lemma start_set o : o_check o = true -> set_to true (start o).
Proof. intros H. unfold start, hook. rewrite H. split; reflexivity. Qed.
Lemma cases_watched o (Ho : o_check o = true) : forall cs st out st1 es, set_to true st -> run_cases o cs st = (out, st1, es) ->
  forall i c e, nth_error cs i = Some c -> nth_error es i = Some e -> forallb (calm false) (c_body c) = true -> forallb (calm false) (c_cleanup c) = true -> case_places c e.
Proof.
  induction cs as [|c r IH]; intros st out st1 es Hw H i c1 e Hi He C1 C2; [destruct i; discriminate|].
  cbn in H. destruct (run_case o c st) as [[o1 s1] e1] eqn:E1.
  destruct i as [|i].
  - injection Hi as <-. assert (P : case_places c e1) by (eapply case_watched; eauto).
    destruct o1; try (injection H as <- <- <-; injection He as <-; exact P).
    destruct (run_cases o r s1) as [[o2 s2] es2]. injection H as <- <- <-. injection He as <-. exact P.
  - destruct o1; try (injection H as <- <- <-; destruct i; discriminate).
    destruct (run_cases o r s1) as [[o2 s2] es2] eqn:E2. injection H as <- <- <-. cbn in Hi, He.
    eapply (IH s1); eauto. eapply case_set; eauto. eapply set_coherent; eauto.
Qed.

(* a case that ends the scope it began *)
Lemma case_ends o c st st1 e : run_case o c st = (Normal, st1, e) ->
  (fst (fst (run_code o (c_body c) (push (c_label c) false st))) <> Jumped \/ flat_map blocks (c_body c) = []) ->
  labels st1 = labels st /\ exists before ks, e = before ++ [Ended (c_label c) ks].
Proof.
  intros H D. apply case_parts in H as (o1 & s1 & e1 & o2 & s2 & e2 & x & r & E1 & Hb & E2 & D2 & E3 & -> & ->).
  rewrite E1 in D. cbn in D.
  apply code_labels in E1 as (t1 & L1 & K1). apply code_labels in E2 as (t2 & L2 & K2).
  rewrite K2 in L2 by tauto. rewrite K1 in L1 by (destruct D as [D|D]; [destruct o1; auto; contradiction | auto]).
  cbn in L2. rewrite L1 in L2. cbn in L2. unfold labels in L2 at 1. rewrite E3 in L2. cbn in L2. injection L2 as Hx Hr.
  split; [unfold labels at 1; rewrite hook_scopes; exact Hr|].
  exists (e1 ++ e2), (unreleased x). rewrite <- app_assoc, Hx. reflexivity.
Qed.
(* any case begins watched *)
Lemma cases_set o (Ho : o_check o = true) : forall cs st st1 es, set_to true st -> run_cases o cs st = (Normal, st1, es) -> set_to true st1.
Proof.
  induction cs as [|c r IH]; intros st st1 es Hw H; cbn in H; [injection H as <- <-; exact Hw|].
  destruct (run_case o c st) as [[o1 s1] e1] eqn:E1. destruct o1; try discriminate.
  destruct (run_cases o r s1) as [[o2 s2] es2] eqn:E2. injection H as -> <- <-.
  eapply IH; [|exact E2]. eapply case_set; eauto. eapply set_coherent; eauto.
Qed.
Lemma case_begins o cs st es c k b : o_check o = true -> run_cases o cs (start o) = (Normal, st, es) -> c_body c = SAlloc k :: b ->
  exists out st1 e, run_case o c st = (out, st1, Seen k (Some (c_label c)) :: e).
Proof.
  intros Ho H Hb. assert (W : set_to true st) by (eapply cases_set; eauto using start_set).
  assert (W1 : watching (push (c_label c) false st) = true) by (apply set_watching; exact W).
  unfold run_case. destruct (run_code o (c_body c) (push (c_label c) false st)) as [[o1 s1] e1] eqn:E1.
  assert (exists e0, e1 = Seen k (Some (c_label c)) :: e0) as [e0 ->].
  { rewrite Hb in E1. apply in_order_step in E1 as [(st3 & e3 & e4 & H1 & H2 & ->) | [Hn H1]]; cbn [exec] in H1; rewrite W1 in H1; cbn in H1.
    - injection H1 as <- <-. cbn. eauto.
    - injection H1 as <- _ _. contradiction. }
  destruct (run_code o (c_cleanup c) s1) as [[o2 s2] e2]. destruct (pop s2) as [[[s3 l3] ks]|]; destruct o1, o2; eexists _, _, _; reflexivity.
Qed.
Lemma cases_installed o cs st es : run_cases o cs (start o) = (Normal, st, es) -> installed st = if o_check o then 1%nat else 0%nat.
Proof.
  intros H. destruct (o_check o) eqn:Ho.
  - eapply cases_set in H; [apply H | exact Ho | apply start_set; exact Ho].
  - apply (cases_keep o nothing (nothing_kept o Ho)) in H; [apply H | apply start_nothing; exact Ho].
Qed.

(* nothing is skipped by code that runs to its end *)
Lemma code_all_from o b : Forall (fun s => forall st out st1 e, untried s = true -> exec o s st = (out, st1, e) -> out = Normal -> forall k, In k (allocs s) -> exists x, In (Seen k x) e) b ->
  forall st st1 e, forallb untried b = true -> run_code o b st = (Normal, st1, e) -> forall k, In k (flat_map allocs b) -> exists x, In (Seen k x) e.
Proof.
  intros Hb. induction Hb as [|x r Hx Hr IH]; intros st st1 e Hu H k Hk; [destruct Hk|].
  cbn in Hu. apply andb_prop in Hu as [U1 U2]. cbn in Hk.
  apply in_order_step in H as [(st3 & e1 & e2 & H1 & H2 & ->) | [Hn _]]; [|contradiction].
  apply in_app_or in Hk as [Hk|Hk].
  - destruct (Hx _ _ _ _ U1 H1 eq_refl k Hk) as [y Hy]. exists y. apply in_or_app. auto.
  - destruct (IH _ _ _ U2 H2 k Hk) as [y Hy]. exists y. apply in_or_app. auto.
Qed.
Lemma exec_all o : forall s st out st1 e, untried s = true -> exec o s st = (out, st1, e) -> out = Normal -> forall k, In k (allocs s) -> exists x, In (Seen k x) e.
Proof.
  intros s. induction s as [k|k| | | |b Hb|l u n b Hb] using stmt_all; intros st out st1 e Hu H Hn k1 Hk; try (destruct Hk; fail).
  - destruct Hk as [<-|[]]. cbn [exec] in H. destruct (watching st); injection H as <- <- <-; eexists; left; reflexivity.
  - discriminate.
  - cbn [exec] in H. destruct (in_order (exec o) b _) as [[o2 st2] e2] eqn:E.
    assert (o2 = Normal /\ exists e3, e = e2 ++ e3) as [-> [e3 ->]].
    { apply leave_cases in H as [(D & -> & -> & ->) | [(D & Z & -> & -> & ->) | (D & s & r & E1 & -> & H)]].
      - destruct D; congruence.
      - discriminate.
      - destruct H as [[-> _]|(-> & _)]; [|discriminate]. eauto. }
    destruct (code_all_from o b Hb _ _ _ Hu E k1 Hk) as [x Hx]. exists x. apply in_or_app. auto.
Qed.
Lemma code_all o b st st1 e : forallb untried b = true -> run_code o b st = (Normal, st1, e) -> forall k, In k (flat_map allocs b) -> exists x, In (Seen k x) e.
Proof. apply code_all_from. apply Forall_forall. intros s _. apply exec_all. Qed.
