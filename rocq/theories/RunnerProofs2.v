(** Running only the cases that failed last time. *)
From Coq Require Import List ZArith NArith Bool Lia Arith.
From Verif Require Import RunnerModel RunnerSpec RunnerProofs.
Import ListNotations.
Local Open Scope Z_scope.

Section Only.
Variable o : opts.
Variable body : oracle.
Variable L : N -> bool.
Hypothesis Hb : break_after_fails o <= 0.
Hypothesis Ho : only_last_failed o = true.
Hypothesis Hl : lists o = false.
Definition wanted (x : nat * case_) : bool := negb (c_todo (snd x)) && negb (c_filtered (snd x)) && c_last_failed (snd x).
Definition tag (x : nat * case_) : nat * N := (fst x, c_id (snd x)).
Definition oinv (r : rstate) (done : list (nat * case_)) : Prop :=
  executed (rev (r_log r)) = map tag (filter wanted done) /\ forall i, In i (r_ignored r) -> L i = false.
Lemma only_step : forall n r ss c done, c_last_failed c = L (c_id c) -> oinv r done -> oinv (fst (visit_case o body n (r, ss) c)) (done ++ [(n, c)]).
Proof.
  intros n r ss c done HL [E I]. unfold visit_case. rewrite Ho, Hl. replace (0 <? break_after_fails o) with false by (symmetry; apply Z.ltb_ge; auto). cbn [andb orb negb].
  set (ign := if negb (c_last_failed c) then c_id c :: r_ignored r else r_ignored r).
  assert (Ig : forall i, In i ign -> L i = false).
  { intros i H. unfold ign in H. destruct (c_last_failed c) eqn:Q; cbn [negb] in H; auto. destruct H as [<-|H]; auto. }
  assert (Ex : existsb (N.eqb (c_id c)) ign = negb (c_last_failed c)).
  { destruct (c_last_failed c) eqn:Q; cbn [negb].
    - destruct (existsb (N.eqb (c_id c)) ign) eqn:Z; auto. apply existsb_exists in Z. destruct Z as (i & Z1 & Z2). apply N.eqb_eq in Z2. subst i. apply Ig in Z1. congruence.
    - unfold ign. cbn [negb existsb]. rewrite N.eqb_refl. auto. }
  rewrite Ex, negb_involutive. unfold oinv. rewrite filter_app, map_app. cbn [filter]. change (wanted (n, c)) with (negb (c_todo c) && negb (c_filtered c) && c_last_failed c).
  destruct (c_filtered c), (c_todo c), (c_last_failed c); cbn [negb andb]; try (destruct (body n (c_id c)) as [f w]);
    cbn [fst r_log r_ignored rev]; rewrite executed_snoc; cbn [v_executed v_round v_case map tag fst snd]; rewrite ?app_nil_r, E; auto.
Qed.
Lemma only_cases : forall n cs r ss done, (forall c, In c cs -> c_last_failed c = L (c_id c)) -> oinv r done -> oinv (fst (fold_left (visit_case o body n) cs (r, ss))) (done ++ map (pair n) cs).
Proof.
  induction cs as [|c cs IH]; intros r ss done H I; cbn [fold_left map]; [rewrite app_nil_r; auto|].
  pose proof (only_step n r ss c done (H c (or_introl eq_refl)) I) as I'. destruct (visit_case o body n (r, ss) c) as [r' ss'].
  replace (done ++ (n, c) :: map (pair n) cs) with ((done ++ [(n, c)]) ++ map (pair n) cs) by (rewrite <- app_assoc; auto). apply IH; auto. intros; apply H; right; auto.
Qed.
Lemma only_suites : forall n ss r reps done, (forall c, In c (concat ss) -> c_last_failed c = L (c_id c)) -> oinv r done -> oinv (fst (fold_left (visit_suite o body n) ss (r, reps))) (done ++ map (pair n) (concat ss)).
Proof.
  induction ss as [|cs ss IH]; intros r reps done H I; cbn [fold_left concat]; [cbn; rewrite app_nil_r; auto|].
  cbn [visit_suite concat] in *. pose proof (only_cases n cs r zero done) as I'. 
  assert (H1 : forall c, In c cs -> c_last_failed c = L (c_id c)) by (intros; apply H; apply in_or_app; auto). specialize (I' H1 I).
  destruct (fold_left (visit_case o body n) cs (r, zero)) as [r' s']. rewrite map_app, app_assoc. apply IH; auto. intros; apply H; apply in_or_app; auto.
Qed.
Lemma only_rounds : forall order rs r reps done, (forall n c, In n rs -> In c (concat (order n)) -> c_last_failed c = L (c_id c)) -> oinv r done ->
  oinv (fst (fold_left (visit_round o body order) rs (r, reps))) (done ++ flat_map (fun n => map (pair n) (concat (order n))) rs).
Proof.
  induction rs as [|n rs IH]; intros r reps done H I; cbn [fold_left flat_map]; [rewrite app_nil_r; auto|].
  unfold visit_round at 2. pose proof (only_suites n (order n) r reps done) as I'.
  assert (H1 : forall c, In c (concat (order n)) -> c_last_failed c = L (c_id c)) by (intros c; apply H; left; auto). specialize (I' H1 I).
  destruct (fold_left (visit_suite o body n) (order n) (r, reps)) as [r' s']. rewrite app_assoc. apply IH; auto. intros m c Im. apply H. right; auto.
Qed.
Lemma only_run : forall order, (forall n c, In c (concat (order n)) -> c_last_failed c = L (c_id c)) ->
  executed (rev (r_log (fst (run o body order)))) = map tag (filter wanted (agenda o order)).
Proof.
  intros order H. unfold run. destruct (only_rounds order (seq 0 (run_rounds o)) (mkr zero [] []) [] []) as [A _]; [intros n c _; apply H|split; [auto|intros i []]|exact A].
Qed.
End Only.
Lemma only_last_failed_run : forall o body order mark, break_after_fails o <= 0 -> only_last_failed o = true -> lists o = false ->
  (forall n c, In c (concat (order n)) -> c_last_failed c = mark (c_id c)) ->
  executed (rev (r_log (fst (run o body order)))) = filter (fun x => mark (snd x)) (eligible o order).
Proof.
  intros o body order mark H1 H2 H3 H4. rewrite (only_run o body mark); auto. unfold eligible. fold tag.
  assert (H5 : forall x, In x (agenda o order) -> c_last_failed (snd x) = mark (c_id (snd x))).
  { intros x I. unfold agenda in I. apply in_flat_map in I. destruct I as (n & _ & I). apply in_map_iff in I. destruct I as (c & <- & I). apply (H4 n). auto. }
  induction (agenda o order) as [|x l IH]; auto. cbn [filter]. unfold wanted at 1. rewrite (H5 x (or_introl eq_refl)).
  assert (IH' := IH (fun y Iy => H5 y (or_intror Iy))). change (fun x : nat * case_ => (fst x, c_id (snd x))) with tag in *.
  destruct (negb (c_todo (snd x)) && negb (c_filtered (snd x))) eqn:Q; cbn [andb map filter snd tag]; auto.
  destruct (mark (c_id (snd x))); cbn [map]; rewrite IH'; auto.
Qed.
