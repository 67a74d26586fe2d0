From Coq Require Import List NArith Bool Arith Lia.
From Verif Require Import CaseModel CaseSpec.
Import ListNotations.
Local Open Scope N_scope.

(** the flags tell what was raised since [from] *)
Definition flags_ok (from : list ev) (st : cs) : Prop :=
  exists l, log st = from ++ l /\ (failed st = true <-> real_failure l) /\ (warning st = true <-> some_warning l).
Lemma real_app : forall a b, real_failure (a ++ b) <-> real_failure a \/ real_failure b.
Proof. intros a b. split; [intros [i I]; apply in_app_or in I; destruct I; [left|right]; exists i; auto|intros [[i I]|[i I]]; exists i; apply in_or_app; auto]. Qed.
Lemma warn_app : forall a b, some_warning (a ++ b) <-> some_warning a \/ some_warning b.
Proof. intros a b. split; [intros [i I]; apply in_app_or in I; destruct I; [left|right]; exists i; auto|intros [[i I]|[i I]]; exists i; apply in_or_app; auto]. Qed.
Lemma flags_log : forall from st e, flags_ok from st -> (forall i w, e <> Raised i w) -> flags_ok from (mkcs (failed st) (warning st) (fails st) (log st ++ [e])).
Proof.
  intros from st e (l & E & F & W) N. exists (l ++ [e]). cbn. rewrite E, app_assoc, real_app, warn_app. split; [auto|]. split; split; intro H; try tauto.
  - destruct H as [H|[i [H|[]]]]; [tauto|]. exfalso. eapply N; eauto.
  - destruct H as [H|[i [H|[]]]]; [tauto|]. exfalso. eapply N; eauto.
Qed.
Lemma flags_failing : forall from st id w d a, flags_ok from st -> flags_ok from (fst (failing st id w d a)).
Proof.
  intros from st id w d a (l & E & F & W). exists (l ++ [Raised id w]). cbn. rewrite E, app_assoc, real_app, warn_app, !orb_true_iff, F, W. split; [auto|]. split; split; intro H.
  - destruct w; cbn in H; destruct H as [H|H]; auto; try discriminate. right. exists id. left. auto.
  - destruct H as [H|[i [H|[]]]]; auto. inversion H; subst. auto.
  - destruct w; cbn in H; destruct H as [H|H]; auto; try discriminate. right. exists id. left. auto.
  - destruct H as [H|[i [H|[]]]]; auto. inversion H; subst. auto.
Qed.
Lemma flags_stmts : forall o from l st, flags_ok from st -> flags_ok from (fst (run_stmts o st l)).
Proof.
  induction l as [|s l IH]; intros st H; cbn [run_stmts]; auto. destruct s as [id w|id].
  - destruct (failing st id w (o_continue o) true) as [st' j] eqn:E. assert (H' : flags_ok from st') by (pose proof (flags_failing from st id w (o_continue o) true H) as G; rewrite E in G; auto).
    destruct j; auto.
  - apply IH. apply flags_log; auto. discriminate.
Qed.
Lemma flags_block : forall o from n b st, flags_ok from st -> flags_ok from (fst (run_block o st n b)).
Proof.
  intros o from n b st H. unfold run_block. pose proof (flags_stmts o from (b_stmts b) _ (flags_log from st (Enter n) H ltac:(discriminate))) as G.
  destruct (run_stmts o _ (b_stmts b)) as [st' j]. auto.
Qed.
Lemma flags_leave : forall fuel o p from k st, flags_ok from st -> match leave fuel o p k st with Returned st' _ => flags_ok from st' | _ => True end.
Proof.
  induction fuel as [|fuel IH]; intros o p from k st H; cbn [leave]; destruct (p_has_cleanup p) eqn:HC; auto.
  pose proof (flags_block o from BCleanup (p_cleanup p k) st H) as G. destruct (run_block o st BCleanup (p_cleanup p k)) as [st' []]; auto.
  apply (IH o p from (S k) st'). auto.
Qed.
Lemma flags_loop : forall fuel o p from k st, flags_ok from st -> match case_loop fuel o p k st with Returned st' _ => flags_ok from st' | _ => True end.
Proof.
  induction fuel as [|fuel IH]; intros o p from k st H; cbn [case_loop]; pose proof (flags_block o from BBody (p_body p k) st H) as G; destruct (run_block o st BBody (p_body p k)) as [st' h]; destruct h; try (apply flags_leave; exact G).
  - destruct (p_has_cleanup p); auto.
  - destruct (p_has_cleanup p); auto. pose proof (flags_block o from BCleanup (p_cleanup p k) st' G) as G'. destruct (run_block o st' BCleanup (p_cleanup p k)) as [st'' []]; auto.
    + apply IH; auto.
    + apply flags_leave; auto.
Qed.
Lemma flags_test_fp : forall fuel o p from st, flags_ok from st -> match test_fp fuel o p st with Returned st' _ => flags_ok from st' | _ => True end.
Proof.
  intros fuel o p from st H. unfold test_fp. pose proof (flags_block o from BSetup (p_setup p) st H) as G. destruct (run_block o st BSetup (p_setup p)) as [st1 []]; auto.
  apply flags_loop. auto.
Qed.
Lemma flags_found : forall o from st f w, flags_ok from st -> flags_ok from (found o st f w).
Proof. intros o from st [id|] w H; cbn [found]; auto. apply flags_failing. auto. Qed.
Lemma flags_suite_test : forall fuel o p from st0 st, log st0 = from -> suite_test fuel o p st0 = Finished st -> flags_ok from st.
Proof.
  intros fuel o p from st0 st E R. unfold suite_test in R. assert (H : flags_ok from (mkcs false false (fails st0) (log st0))).
  { exists []. cbn. rewrite E, app_nil_r. split; auto. split; split; try discriminate; intros [i []]. }
  pose proof (flags_test_fp fuel o p from _ H) as G. destruct (test_fp fuel o p _) as [st' t| |]; try discriminate. inversion R; subst. repeat apply flags_found. auto.
Qed.

(** what the statements of a block do *)
Lemma stmts_spec : forall o l st, exists l' whole, stops o l l' whole /\ log (fst (run_stmts o st l)) = log st ++ map ev_of l' /\ snd (run_stmts o st l) = negb whole.
Proof.
  induction l as [|s l IH]; intros st.
  - exists [], true. split; [constructor; right; intros s []|]. cbn. rewrite app_nil_r. auto.
  - cbn [run_stmts]. destruct s as [id w|id].
    + destruct (failing st id w (o_continue o) true) as [st' j] eqn:E. unfold failing in E. injection E as E1 E2.
      destruct j.
      * apply andb_true_iff in E2. destruct E2 as [C W]. apply negb_true_iff in C. apply negb_true_iff in W. subst w. exists [Raise id false], false. split.
        -- apply (stops_at o [] (Raise id false) l); cbn; auto.
        -- subst st'. cbn. auto.
      * destruct (IH st') as (l' & wh & S & L & J). assert (HS : o_continue o = true \/ ~ hard (Raise id w)) by (destruct (o_continue o), w; cbn in *; auto; discriminate).
        exists (Raise id w :: l'), wh. rewrite L, J. split; [|subst st'; cbn; rewrite <- app_assoc; auto].
        clear - S HS. inversion S as [l0 C|pre s post C P Hs]; subst.
        -- constructor. destruct HS as [HS|HS]; auto. destruct C as [C|C]; auto. right. intros s [<-|I]; auto.
        -- change (Raise id w :: pre ++ s :: post) with ((Raise id w :: pre) ++ s :: post). change (Raise id w :: pre ++ [s]) with ((Raise id w :: pre) ++ [s]). constructor; auto.
           destruct HS as [HS|HS]; [congruence|]. intros s' [<-|I]; auto.
    + destruct (IH (mkcs (failed st) (warning st) (fails st) (log st ++ [Did id]))) as (l' & wh & S & L & J). exists (Do id :: l'), wh. rewrite L, J. cbn [log]. split; [|cbn; rewrite <- app_assoc; auto].
      clear - S. inversion S as [l0 C|pre s post C P Hs]; subst.
      * constructor. destruct C as [C|C]; auto. right. intros s [<-|I]; auto.
      * change (Do id :: pre ++ s :: post) with ((Do id :: pre) ++ s :: post). change (Do id :: pre ++ [s]) with ((Do id :: pre) ++ [s]). constructor; auto. intros s' [<-|I]; auto.
Qed.
Definition how_of (whole throws : bool) : how := if whole then (if throws then HThrow else HNormal) else HJump.
Lemma block_spec : forall o st n b, exists l' whole st', stops o (b_stmts b) l' whole /\ run_block o st n b = (st', how_of whole (b_throws b)) /\ log st' = log st ++ Enter n :: map ev_of l'.
Proof.
  intros o st n b. unfold run_block. destruct (stmts_spec o (b_stmts b) (mkcs (failed st) (warning st) (fails st) (log st ++ [Enter n]))) as (l' & wh & S & L & J).
  destruct (run_stmts o _ (b_stmts b)) as [st' j]. cbn in L, J. exists l', wh, st'. split; auto. split; [subst j; destruct wh; auto|]. rewrite L, <- app_assoc. auto.
Qed.
Lemma stops_det : forall o l l1 w1, stops o l l1 w1 -> forall l2 w2, stops o l l2 w2 -> l1 = l2 /\ w1 = w2.
Proof.
  intros o l l1 w1 H1 l2 w2 H2.
  assert (K : forall a s b a' s' b', a ++ s :: b = a' ++ s' :: b' -> (forall x, In x a -> ~ hard x) -> (forall x, In x a' -> ~ hard x) -> hard s -> hard s' -> a = a' /\ s = s').
  { induction a as [|x a IH]; intros s b [|y a'] s' b' E A A' S S'; cbn in E; inversion E; subst; auto.
    - exfalso. apply (A' y); auto. left; auto.
    - exfalso. apply (A s'); auto. left; auto.
    - destruct (IH s b a' s' b') as [-> ->]; auto; intros z I; [apply A|apply A']; right; auto. }
  inversion H1 as [la C1|pa sa qa C1 P1 S1]; inversion H2 as [lb C2|pb sb qb C2 P2 S2]; subst; auto.
  - exfalso. destruct C1 as [C|C]; [congruence|]. apply (C sb); auto. apply in_or_app. right. left. auto.
  - exfalso. destruct C2 as [C|C]; [congruence|]. apply (C sa); auto. apply in_or_app. right. left. auto.
  - destruct (K pb sb qb pa sa qa) as [-> ->]; auto.
Qed.
Lemma safe_whole : forall o b l w, safe_block o b -> stops o (b_stmts b) l w -> l = b_stmts b /\ w = true.
Proof. intros o b l w [C|C] S; (eapply stops_det; [exact S|]); constructor; auto. Qed.

(** leaving the case: the log of cleanup *)
Lemma leave_ret : forall fuel o p k st st' t, leave fuel o p k st = Returned st' t ->
  (p_has_cleanup p = false /\ st' = st /\ t = false) \/
  (p_has_cleanup p = true /\ exists l' rest, log st' = log st ++ Enter BCleanup :: map ev_of l' ++ rest /\ (exists w, stops o (b_stmts (p_cleanup p k)) l' w)).
Proof.
  induction fuel as [|fuel IH]; intros o p k st st' t R; cbn [leave] in R; destruct (p_has_cleanup p) eqn:HC; try discriminate.
  - inversion R; subst. auto.
  - right. split; auto. destruct (block_spec o st BCleanup (p_cleanup p k)) as (l' & w & s1 & S & E & L). rewrite E in R. destruct w, (b_throws (p_cleanup p k)) eqn:T; cbn in R.
    + inversion R; subst. exists l', []. rewrite app_nil_r. eauto.
    + inversion R; subst. exists l', []. rewrite app_nil_r. eauto.
    + apply IH in R. destruct R as [(X & _)|(_ & l2 & r2 & L2 & _)]; [congruence|]. exists l', (Enter BCleanup :: map ev_of l2 ++ r2). rewrite L2, L, <- !app_assoc. cbn. rewrite <- ?app_assoc. split; eauto.
    + apply IH in R. destruct R as [(X & _)|(_ & l2 & r2 & L2 & _)]; [congruence|]. exists l', (Enter BCleanup :: map ev_of l2 ++ r2). rewrite L2, L, <- !app_assoc. cbn. rewrite <- ?app_assoc. split; eauto.
  - inversion R; subst. auto.
Qed.
Lemma found_log : forall o st f w, log (found o st f w) = log st ++ opt_ev f w.
Proof. intros o st [id|] w; cbn; auto. rewrite app_nil_r. auto. Qed.

(** A case that ends well, whose body does not throw and whose cleanup does not fail, was executed block after block *)
Lemma case_course : forall fuel o p, (1 <= fuel)%nat ->
  safe_block o (p_pre p) -> b_throws (p_pre p) = false -> safe_block o (p_setup p) -> b_throws (p_setup p) = false ->
  b_throws (p_body p 0) = false -> safe_block o (p_cleanup p 0) -> b_throws (p_cleanup p 0) = false -> safe_block o (p_post p) -> b_throws (p_post p) = false ->
  exists st body' whole, run_case fuel o p = Finished st /\ stops o (b_stmts (p_body p 0)) body' whole /\
    log st = Enter BPre :: map ev_of (b_stmts (p_pre p)) ++ Enter BSetup :: map ev_of (b_stmts (p_setup p)) ++ Enter BBody :: map ev_of body' ++
             (if p_has_cleanup p then Enter BCleanup :: map ev_of (b_stmts (p_cleanup p 0)) else []) ++
             opt_ev (p_mocks p) false ++ opt_ev (p_leak p) false ++ Enter BPost :: map ev_of (b_stmts (p_post p)).
Proof.
  intros fuel o p F SP TP SS TS TB SC TC SQ TQ. unfold run_case.
  destruct (block_spec o (mkcs false false [] []) BPre (p_pre p)) as (l1 & w1 & s1 & S1 & E1 & L1). destruct (safe_whole _ _ _ _ SP S1) as [-> ->]. rewrite E1, TP. cbn [how_of].
  unfold suite_test, test_fp.
  destruct (block_spec o (mkcs false false (fails s1) (log s1)) BSetup (p_setup p)) as (l2 & w2 & s2 & S2 & E2 & L2). destruct (safe_whole _ _ _ _ SS S2) as [-> ->]. rewrite E2, TS. cbn [how_of].
  destruct (block_spec o s2 BBody (p_body p 0)) as (l3 & w3 & s3 & S3 & E3 & L3).
  assert (X : case_loop fuel o p 0 s2 = leave fuel o p 0 s3) by (destruct fuel; cbn [case_loop]; rewrite E3, TB; destruct w3; auto). rewrite X. clear X.
  assert (X : exists s4, leave fuel o p 0 s3 = Returned s4 false /\ log s4 = log s3 ++ if p_has_cleanup p then Enter BCleanup :: map ev_of (b_stmts (p_cleanup p 0)) else []).
  { destruct fuel as [|fuel]; [lia|]. cbn [leave]. destruct (p_has_cleanup p).
    - destruct (block_spec o s3 BCleanup (p_cleanup p 0)) as (l4 & w4 & s4 & S4 & E4 & L4). destruct (safe_whole _ _ _ _ SC S4) as [-> ->]. rewrite E4, TC. cbn [how_of]. eauto.
    - exists s3. rewrite app_nil_r. auto. }
  destruct X as (s4 & -> & L4). cbn [found].
  set (s5 := found o s4 (p_mocks p) false). set (s6 := found o s5 (p_leak p) false).
  destruct (block_spec o s6 BPost (p_post p)) as (l7 & w7 & s7 & S7 & E7 & L7). destruct (safe_whole _ _ _ _ SQ S7) as [-> ->]. rewrite E7, TQ. cbn [how_of].
  exists s7, l3, w3. split; auto. split; auto.
  rewrite L7. unfold s6. rewrite found_log. unfold s5. rewrite found_log, L4, L3, L2. cbn [log]. rewrite L1. cbn [log].
  repeat rewrite <- app_assoc. cbn [app]. repeat rewrite <- app_assoc. cbn [app]. repeat rewrite <- app_assoc. cbn [app]. auto.
Qed.

(** the verdict *)
Lemma real_stmts : forall l, real_failure (map ev_of l) <-> exists s, In s l /\ hard s.
Proof.
  intros l. split.
  - intros [i I]. apply in_map_iff in I. destruct I as (s & E & I). exists s. split; auto. destruct s as [j w|j]; inversion E; subst. exact Logic.I.
  - intros (s & I & H). destruct s as [j []|j]; cbn in H; try tauto. exists j. change (Raised j false) with (ev_of (Raise j false)). apply in_map. auto.
Qed.
Lemma stops_incl : forall o l l' w s, stops o l l' w -> In s l' -> In s l.
Proof. intros o l l' w s S I. inversion S; subst; auto. apply in_app_or in I. apply in_or_app. destruct I as [I|[<-|[]]]; auto. right. left. auto. Qed.
Lemma case_verdict : forall fuel o p st, run_case fuel o p = Finished st -> soft_block (p_pre p) -> (failed st = true <-> real_failure (log st)).
Proof.
  intros fuel o p st R SP. unfold run_case in R.
  destruct (block_spec o (mkcs false false [] []) BPre (p_pre p)) as (l1 & w1 & s1 & S1 & E1 & L1). rewrite E1 in R. destruct (how_of w1 (b_throws (p_pre p))); try discriminate.
  destruct (suite_test fuel o p s1) as [s2| | |] eqn:E2; try discriminate. pose proof (flags_suite_test fuel o p (log s1) s1 s2 eq_refl E2) as G.
  pose proof (flags_block o (log s1) BPost (p_post p) s2 G) as G2. destruct (run_block o s2 BPost (p_post p)) as [s3 h]. destruct h; try discriminate. inversion R; subst. cbn in G2.
  destruct G2 as (l & L & F & _). rewrite F, L, L1. change (log (mkcs false false [] []) ++ Enter BPre :: map ev_of l1) with (Enter BPre :: map ev_of l1). split; [intros H; apply real_app; auto|].
  intros H. apply real_app in H. destruct H as [[i [H|H]]|H]; [discriminate| |auto]. exfalso.
  destruct (proj1 (real_stmts l1)) as (s & I & Hs); [exists i; auto|]. apply (SP s); auto. eapply stops_incl; eauto.
Qed.
Lemma case_warning : forall fuel o p st, run_case fuel o p = Finished st -> quiet_block (p_pre p) -> (warning st = true <-> some_warning (log st)).
Proof.
  intros fuel o p st R SP. unfold run_case in R.
  destruct (block_spec o (mkcs false false [] []) BPre (p_pre p)) as (l1 & w1 & s1 & S1 & E1 & L1). rewrite E1 in R. destruct (how_of w1 (b_throws (p_pre p))); try discriminate.
  destruct (suite_test fuel o p s1) as [s2| | |] eqn:E2; try discriminate. pose proof (flags_suite_test fuel o p (log s1) s1 s2 eq_refl E2) as G.
  pose proof (flags_block o (log s1) BPost (p_post p) s2 G) as G2. destruct (run_block o s2 BPost (p_post p)) as [s3 h]. destruct h; try discriminate. inversion R; subst. cbn in G2.
  destruct G2 as (l & L & _ & F). rewrite F, L, L1. change (log (mkcs false false [] []) ++ Enter BPre :: map ev_of l1) with (Enter BPre :: map ev_of l1). split; [intros H; apply warn_app; auto|].
  intros H. apply warn_app in H. destruct H as [[i [H|H]]|H]; [discriminate| |auto]. exfalso. apply in_map_iff in H. destruct H as (s & E & I). destruct s as [j w|j]; inversion E; subst.
  apply (SP i true). eapply stops_incl; eauto.
Qed.

(** exceptions *)
Lemma case_exception : forall fuel o p st, run_case fuel o p = Finished st -> p_has_cleanup p = false -> safe_block o (p_setup p) -> safe_block o (p_body p 0) ->
  b_throws (p_setup p) = true \/ b_throws (p_body p 0) = true -> In (Raised (p_exception p) (o_uncaught_warning o)) (log st).
Proof.
  intros fuel o p st R HC SS SB T. unfold run_case in R.
  destruct (block_spec o (mkcs false false [] []) BPre (p_pre p)) as (l1 & w1 & s1 & S1 & E1 & L1). rewrite E1 in R. destruct (how_of w1 (b_throws (p_pre p))); try discriminate.
  destruct (suite_test fuel o p s1) as [s2| | |] eqn:E2; try discriminate.
  destruct (block_spec o s2 BPost (p_post p)) as (l7 & w7 & s7 & S7 & E7 & L7). rewrite E7 in R. destruct (how_of w7 (b_throws (p_post p))); try discriminate. inversion R; subst.
  rewrite L7. apply in_or_app. left. unfold suite_test in E2.
  assert (X : exists s3, test_fp fuel o p (mkcs false false (fails s1) (log s1)) = Returned s3 true).
  { unfold test_fp. destruct (block_spec o (mkcs false false (fails s1) (log s1)) BSetup (p_setup p)) as (l3 & w3 & s3 & S3 & E3 & L3). rewrite E3. destruct (safe_whole _ _ _ _ SS S3) as [-> ->]. cbn [how_of].
    destruct (b_throws (p_setup p)) eqn:TS; [eauto|]. destruct T as [T|T]; [discriminate|].
    destruct (block_spec o s3 BBody (p_body p 0)) as (l4 & w4 & s4 & S4 & E4 & L4). destruct (safe_whole _ _ _ _ SB S4) as [-> ->]. exists s4. destruct fuel; cbn [case_loop]; rewrite E4, T, HC; auto. }
  destruct X as (s3 & X). rewrite X in E2. inversion E2; subst. rewrite !found_log. cbn [opt_ev]. apply in_or_app. left. apply in_or_app. left. apply in_or_app. right. left. auto.
Qed.
(** a body that always throws in a suite with Cleanup is executed for ever *)
Lemma case_exception_loop : forall o p, p_has_cleanup p = true -> safe_block o (p_pre p) -> b_throws (p_pre p) = false -> safe_block o (p_setup p) -> b_throws (p_setup p) = false ->
  (forall k, safe_block o (p_body p k) /\ b_throws (p_body p k) = true) -> (forall k, safe_block o (p_cleanup p k) /\ b_throws (p_cleanup p k) = false) ->
  forall fuel, run_case fuel o p = OutOfFuel.
Proof.
  intros o p HC SP TP SS TS HB HK fuel. unfold run_case.
  destruct (block_spec o (mkcs false false [] []) BPre (p_pre p)) as (l1 & w1 & s1 & S1 & E1 & L1). destruct (safe_whole _ _ _ _ SP S1) as [-> ->]. rewrite E1, TP. cbn [how_of].
  unfold suite_test, test_fp.
  destruct (block_spec o (mkcs false false (fails s1) (log s1)) BSetup (p_setup p)) as (l2 & w2 & s2 & S2 & E2 & L2). destruct (safe_whole _ _ _ _ SS S2) as [-> ->]. rewrite E2, TS. cbn [how_of].
  assert (X : forall fuel k s, case_loop fuel o p k s = RFuel).
  { clear - HC HB HK. induction fuel as [|fuel IH]; intros k s; cbn [case_loop]; destruct (block_spec o s BBody (p_body p k)) as (l4 & w4 & s4 & S4 & E4 & L4); destruct (HB k) as [SB TB]; destruct (safe_whole _ _ _ _ SB S4) as [-> ->]; rewrite E4, TB, HC; cbn [how_of]; auto.
    destruct (block_spec o s4 BCleanup (p_cleanup p k)) as (l5 & w5 & s5 & S5 & E5 & L5). destruct (HK k) as [SK TK]; destruct (safe_whole _ _ _ _ SK S5) as [-> ->]; rewrite E5, TK; cbn [how_of]; auto. }
  rewrite X. auto.
Qed.
(** a cleanup that always fails is executed for ever *)
Lemma case_cleanup_loop : forall o p, p_has_cleanup p = true -> o_continue o = false -> safe_block o (p_pre p) -> b_throws (p_pre p) = false -> safe_block o (p_setup p) -> b_throws (p_setup p) = false ->
  b_throws (p_body p 0) = false -> (forall k, exists s, In s (b_stmts (p_cleanup p k)) /\ hard s) ->
  forall fuel, run_case fuel o p = OutOfFuel.
Proof.
  intros o p HC OC SP TP SS TS HB HK fuel. unfold run_case.
  destruct (block_spec o (mkcs false false [] []) BPre (p_pre p)) as (l1 & w1 & s1 & S1 & E1 & L1). destruct (safe_whole _ _ _ _ SP S1) as [-> ->]. rewrite E1, TP. cbn [how_of].
  unfold suite_test, test_fp.
  destruct (block_spec o (mkcs false false (fails s1) (log s1)) BSetup (p_setup p)) as (l2 & w2 & s2 & S2 & E2 & L2). destruct (safe_whole _ _ _ _ SS S2) as [-> ->]. rewrite E2, TS. cbn [how_of].
  assert (X : forall fuel k s, leave fuel o p k s = RFuel).
  { clear - HC HK OC. induction fuel as [|fuel IH]; intros k s; cbn [leave]; rewrite HC; auto.
    destruct (block_spec o s BCleanup (p_cleanup p k)) as (l5 & w5 & s5 & S5 & E5 & L5). destruct (HK k) as (x & I & Hx). rewrite E5. inversion S5 as [l0 C|]; subst; cbn [how_of]; auto.
    exfalso. destruct C as [C|C]; [congruence|]. apply (C x); auto. }
  destruct (block_spec o s2 BBody (p_body p 0)) as (l3 & w3 & s3 & S3 & E3 & L3). destruct fuel; cbn [case_loop]; rewrite E3, HB; destruct w3; cbn [how_of]; rewrite X; auto.
Qed.

(** the list of failures kept for the report *)
Lemma fails_stmts : forall o l st, fails st = raised (log st) -> fails (fst (run_stmts o st l)) = raised (log (fst (run_stmts o st l))).
Proof.
  induction l as [|s l IH]; intros st H; cbn [run_stmts]; auto. destruct s as [id w|id].
  - assert (X : fails (fst (failing st id w (o_continue o) true)) = raised (log (fst (failing st id w (o_continue o) true)))).
    { cbn. unfold raised. rewrite flat_map_app. fold (raised (log st)). rewrite <- H. cbn. destruct (fails st); auto. }
    destruct (failing st id w (o_continue o) true) as [st' j]. destruct j; auto.
  - apply IH. cbn. unfold raised. rewrite flat_map_app. cbn. rewrite app_nil_r. auto.
Qed.
Lemma fails_block : forall o n b st, fails st = raised (log st) -> fails (fst (run_block o st n b)) = raised (log (fst (run_block o st n b))).
Proof.
  intros o n b st H. unfold run_block. assert (X : fails (mkcs (failed st) (warning st) (fails st) (log st ++ [Enter n])) = raised (log (mkcs (failed st) (warning st) (fails st) (log st ++ [Enter n])))).
  { cbn. unfold raised. rewrite flat_map_app. cbn. rewrite app_nil_r. auto. }
  pose proof (fails_stmts o (b_stmts b) _ X) as G. destruct (run_stmts o _ (b_stmts b)) as [st' j]. auto.
Qed.
Lemma fails_leave : forall fuel o p k st st' t, fails st = raised (log st) -> leave fuel o p k st = Returned st' t -> fails st' = raised (log st').
Proof.
  induction fuel as [|fuel IH]; intros o p k st st' t H R; cbn [leave] in R; destruct (p_has_cleanup p); try discriminate; try (inversion R; subst; auto; fail).
  pose proof (fails_block o BCleanup (p_cleanup p k) st H) as G. destruct (run_block o st BCleanup (p_cleanup p k)) as [s1 []]; try (inversion R; subst; auto; fail). eapply IH; [|exact R]. auto.
Qed.
Lemma fails_loop : forall fuel o p k st st' t, fails st = raised (log st) -> case_loop fuel o p k st = Returned st' t -> fails st' = raised (log st').
Proof.
  induction fuel as [|fuel IH]; intros o p k st st' t H R; cbn [case_loop] in R; pose proof (fails_block o BBody (p_body p k) st H) as G; destruct (run_block o st BBody (p_body p k)) as [s1 []];
    try (eapply fails_leave; [|exact R]; auto; fail); destruct (p_has_cleanup p); try discriminate; try (inversion R; subst; auto; fail).
  pose proof (fails_block o BCleanup (p_cleanup p k) s1 G) as G2. destruct (run_block o s1 BCleanup (p_cleanup p k)) as [s2 []]; try (inversion R; subst; auto; fail).
  - eapply IH; [|exact R]; auto.
  - eapply fails_leave; [|exact R]; auto.
Qed.
Lemma fails_found : forall o st f w, o_continue o = true -> fails st = raised (log st) -> fails (found o st f w) = raised (log (found o st f w)).
Proof. intros o st [id|] w C H; cbn; auto. rewrite C. unfold raised. rewrite flat_map_app. fold (raised (log st)). rewrite <- H. cbn. destruct (fails st); auto. Qed.
(** when going on after failures, all of them are reported, in order *)
Lemma case_fails : forall fuel o p st, run_case fuel o p = Finished st -> o_continue o = true -> fails st = raised (log st).
Proof.
  intros fuel o p st R C. unfold run_case in R. pose proof (fails_block o BPre (p_pre p) (mkcs false false [] []) eq_refl) as G.
  destruct (run_block o (mkcs false false [] []) BPre (p_pre p)) as [s1 []]; try discriminate.
  destruct (suite_test fuel o p s1) as [s2| | |] eqn:E2; try discriminate.
  assert (G2 : fails s2 = raised (log s2)).
  { unfold suite_test in E2. destruct (test_fp fuel o p (mkcs false false (fails s1) (log s1))) as [s3 t| |] eqn:E3; try discriminate. inversion E2; subst. repeat (apply fails_found; auto).
    unfold test_fp in E3. pose proof (fails_block o BSetup (p_setup p) (mkcs false false (fails s1) (log s1)) G) as G3. destruct (run_block o _ BSetup (p_setup p)) as [s4 []]; try discriminate.
    - eapply fails_loop; [|exact E3]. auto.
    - inversion E3; subst. auto. }
  pose proof (fails_block o BPost (p_post p) s2 G2) as G3. destruct (run_block o s2 BPost (p_post p)) as [s3 []]; try discriminate. inversion R; subst. auto.
Qed.
(** the Warning prefix *)
Lemma wrun_clean : forall l, Forall wclean l -> wrun false l = (false, map wexpect l).
Proof.
  induction l as [|s l IH]; intros H; auto. inversion H; subst. cbn [wrun]. assert (E : wstep false s = (false, wexpect s)).
  { destruct s as [p f t|p]; cbn in *; [|subst; auto]. rewrite andb_false_r. destruct t; [destruct p; auto; discriminate (H2 eq_refl)|]. destruct f, p; auto. }
  rewrite E, IH by auto. auto.
Qed.
(** an exception out of the Cleanup block *)
Lemma case_exception_in_cleanup : forall fuel o p st, run_case fuel o p = Finished st -> p_has_cleanup p = true -> safe_block o (p_setup p) -> b_throws (p_setup p) = false -> b_throws (p_body p 0) = false ->
  safe_block o (p_cleanup p 0) -> b_throws (p_cleanup p 0) = true -> In (Raised (p_exception p) (o_uncaught_warning o)) (log st).
Proof.
  intros fuel o p st R HC SS TS TB SK TK. unfold run_case in R.
  destruct (block_spec o (mkcs false false [] []) BPre (p_pre p)) as (l1 & w1 & s1 & S1 & E1 & L1). rewrite E1 in R. destruct (how_of w1 (b_throws (p_pre p))); try discriminate.
  destruct (suite_test fuel o p s1) as [s2| | |] eqn:E2; try discriminate.
  destruct (block_spec o s2 BPost (p_post p)) as (l7 & w7 & s7 & S7 & E7 & L7). rewrite E7 in R. destruct (how_of w7 (b_throws (p_post p))); try discriminate. inversion R; subst.
  rewrite L7. apply in_or_app. left. unfold suite_test in E2.
  destruct (test_fp fuel o p (mkcs false false (fails s1) (log s1))) as [s3 t| |] eqn:E3; try discriminate.
  assert (X : t = true).
  { unfold test_fp in E3. destruct (block_spec o (mkcs false false (fails s1) (log s1)) BSetup (p_setup p)) as (l3 & w3 & s4 & S3 & E4 & L3). rewrite E4 in E3. destruct (safe_whole _ _ _ _ SS S3) as [-> ->]. rewrite TS in E3. cbn [how_of] in E3.
    destruct (block_spec o s4 BBody (p_body p 0)) as (l4 & w4 & s5 & S4 & E5 & L4).
    assert (Y : case_loop fuel o p 0 s4 = leave fuel o p 0 s5) by (destruct fuel; cbn [case_loop]; rewrite E5, TB; destruct w4; auto). rewrite Y in E3.
    destruct fuel as [|fuel]; cbn [leave] in E3; rewrite HC in E3; [discriminate|].
    destruct (block_spec o s5 BCleanup (p_cleanup p 0)) as (l6 & w6 & s6 & S6 & E6 & L6). destruct (safe_whole _ _ _ _ SK S6) as [-> ->]. rewrite E6, TK in E3. cbn [how_of] in E3. congruence. }
  subst t. inversion E2; subst. rewrite !found_log. cbn [opt_ev]. apply in_or_app. left. apply in_or_app. left. apply in_or_app. right. left. auto.
Qed.
(** the warning flag left over *)
Lemma wrun_app : forall a b f, wrun f (a ++ b) = let '(f1, o1) := wrun f a in let '(f2, o2) := wrun f1 b in (f2, o1 ++ o2).
Proof.
  induction a as [|s a IH]; intros b f; cbn [app wrun]; [destruct (wrun f b); auto|]. destruct (wstep f s) as [f1 o]. rewrite IH. destruct (wrun f1 a) as [f2 o2]. destruct (wrun f2 b); auto.
Qed.
Lemma wrun_idle : forall mid, Forall widle mid -> wrun true mid = (true, map wskipped mid).
Proof.
  induction mid as [|s mid IH]; intros H; auto. inversion H; subst. cbn [wrun map]. assert (E : wstep true s = (true, wskipped s)).
  { destruct s as [p f t|p]; cbn in *; destruct p; auto. destruct H2 as [?|H2]; [discriminate|subst; auto]. }
  rewrite E, IH by auto. auto.
Qed.
Lemma wrun_leftover : forall s mid f rest, wleaves s -> Forall widle mid -> Forall wclean rest ->
  wrun false (s :: mid ++ WAssert false f false :: rest) = (false, wexpect s :: map wskipped mid ++ (if f then WWarn else WPass) :: map wexpect rest).
Proof.
  intros s mid f rest L M R. cbn [wrun]. assert (E : wstep false s = (true, wexpect s)).
  { destruct s as [p g t|p]; cbn in *; [destruct L as [-> ->]; auto|subst; auto]. }
  rewrite E, wrun_app, wrun_idle by auto. cbn [wrun wstep andb]. destruct f; cbn; rewrite wrun_clean by auto; auto.
Qed.
