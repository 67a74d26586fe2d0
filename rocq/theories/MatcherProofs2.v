(** Consequences: logic without containers, options, median. *)
From Coq Require Import List ZArith NArith Bool Sorted Permutation Lia.
From Verif Require Import FailModel MatcherModel MatcherSpec MatcherProofs.
Import ListNotations.
Local Open Scope Z_scope.

Lemma logical_ok : forall m, logical m -> forall v t, typed m v /\ times_ok m t.
Proof.
  apply (matcher_ind' (fun m => logical m -> forall v t, typed m v /\ times_ok m t)); cbn [logical typed times_ok]; try tauto; try (intros; split; [apply H|apply H]; auto; fail).
  - intros b x y Hx Hy [Lx Ly] v t. destruct (Hx Lx v t), (Hy Ly v t). auto.
  - intros x y Hx Hy [Lx Ly] v t. destruct (Hx Lx v t), (Hy Ly v t). auto.
  - intros x y Hx Hy [Lx Ly] v t. destruct (Hx Lx v t), (Hy Ly v t). auto.
  - intros l F L v t. induction F as [|m l Hm F IH]; [auto|]. destruct L as [L1 L2]. destruct (Hm L1 v t), (IH L2). auto.
  - intros l F L v t. induction F as [|m l Hm F IH]; [auto|]. destruct L as [L1 L2]. destruct (Hm L1 v t), (IH L2). auto.
  - intros l F L v t. induction F as [|m l Hm F IH]; [auto|]. destruct L as [L1 L2]. destruct (Hm L1 v t), (IH L2). auto.
Qed.
Definition env_of (c : ctx) : env := mkenv (c_ci c) (c_sq c) (c_rs c) (c_re c) (c_times c).
Lemma sem_bool : forall m, logical m -> forall e v, sem m e v <-> truth m (e_ci e) (e_sq e) v = true.
Proof.
  apply (matcher_ind' (fun m => logical m -> forall e v, sem m e v <-> truth m (e_ci e) (e_sq e) v = true)); cbn [logical sem truth]; try tauto.
  - intros f m H L e v. pose proof (H L (scope f e) v) as S. cbn [scope e_ci e_sq] in S. destruct (f_neg f); cbn; [|auto]. rewrite negb_true_iff, S. destruct (truth m _ _ v); intuition discriminate.
  - intros m H L e v. rewrite (H L), negb_true_iff. destruct (truth m _ _ v); intuition discriminate.
  - intros b x y Hx Hy [Lx Ly] e v. destruct b; auto.
  - intros x y Hx Hy [Lx Ly] e v. rewrite (Hx Lx), (Hy Ly), andb_true_iff. tauto.
  - intros x y Hx Hy [Lx Ly] e v. rewrite (Hx Lx), (Hy Ly), orb_true_iff. tauto.
  - intros l F L e v. induction F as [|m l Hm F IH]; [cbn; tauto|]. destruct L as [L1 L2]. rewrite (Hm L1), (IH L2). cbn. rewrite andb_true_iff. tauto.
  - intros l F L e v. induction F as [|m l Hm F IH]; [cbn; intuition discriminate|]. destruct L as [L1 L2]. rewrite (Hm L1), (IH L2). cbn. rewrite orb_true_iff. tauto.
  - intros l F L e v. induction F as [|m l Hm F IH]; [cbn; tauto|]. destruct L as [L1 L2]. rewrite (Hm L1), (IH L2). cbn. rewrite andb_true_iff, negb_true_iff. destruct (truth m _ _ v); intuition discriminate.
  - intros m H L e v. exact (H L (mkenv true (e_sq e) (e_from e) (e_upto e) (e_times e)) v).
  - intros m H L e v. exact (H L (mkenv (e_ci e) true (e_from e) (e_upto e) (e_times e)) v).
Qed.
Lemma truth_verdict : forall m c v, logical m -> isnull (matches m c v) = xorb (c_neg c) (truth m (c_ci c) (c_sq c) v).
Proof.
  intros m c v L. destruct (logical_ok m L v (c_times c)) as [T O]. pose proof (verdict m c v T O) as H. pose proof (sem_bool m L (env_of c) v) as S. unfold env_of in S. cbn [e_ci e_sq] in S.
  apply eq_true_iff_eq. rewrite isnull_eq, H. destruct (c_neg c); rewrite S; destruct (truth m _ _ v); cbn; intuition discriminate.
Qed.
Lemma negate : forall m c v, logical m -> isnull (matches (MNot m) c v) = negb (isnull (matches m c v)).
Proof. intros m c v L. rewrite !truth_verdict by auto. cbn [truth]. destruct (c_neg c), (truth m _ _ v); reflexivity. Qed.
Lemma negate_ctx : forall m c v, logical m -> isnull (matches m (upd_neg c (negb (c_neg c))) v) = negb (isnull (matches m c v)).
Proof. intros m c v L. rewrite !truth_verdict by auto. cbn. destruct (c_neg c), (truth m _ _ v); reflexivity. Qed.
Lemma demorgan_and : forall a b c v, logical a -> logical b -> isnull (matches (MNot (MAnd a b)) c v) = isnull (matches (MOr (MNot a) (MNot b)) c v).
Proof. intros a b c v La Lb. rewrite !truth_verdict by (cbn; auto). cbn [truth]. destruct (truth a _ _ v), (truth b _ _ v); reflexivity. Qed.
Lemma demorgan_or : forall a b c v, logical a -> logical b -> isnull (matches (MNot (MOr a b)) c v) = isnull (matches (MAnd (MNot a) (MNot b)) c v).
Proof. intros a b c v La Lb. rewrite !truth_verdict by (cbn; auto). cbn [truth]. destruct (truth a _ _ v), (truth b _ _ v); reflexivity. Qed.

(** options *)
Lemma ops_neg : forall ops f, f_neg (fold_left apply_op ops f) = xorb (f_neg f) (Nat.odd (nots ops)).
Proof.
  induction ops as [|o ops IH]; intros f; [cbn; destruct (f_neg f); reflexivity|]. cbn [fold_left]. rewrite IH. unfold nots. destruct o as [| | |n|s e|e]; cbn [apply_op f_neg filter length is_not]; auto; try (destruct (e =? -1); auto).
  rewrite Nat.odd_succ, <- Nat.negb_odd. destruct (f_neg f), (Nat.odd (length (filter is_not ops))); reflexivity.
Qed.
Lemma ops_neg0 : forall ops, f_neg (fold_left apply_op ops flags0) = Nat.odd (nots ops). Proof. intros ops. rewrite ops_neg. cbn [flags0 f_neg]. apply xorb_false_l. Qed.

(** median *)
Lemma insert_perm : forall x b, Permutation (insert x b) (x :: b).
Proof. induction b as [|y b IH]; cbn; auto. destruct (x <? y); auto. rewrite IH. constructor. Qed.
Lemma insert_sorted : forall x b, Sorted Z.le b -> Sorted Z.le (insert x b).
Proof.
  induction b as [|y b IH]; intros S; cbn; [repeat constructor|]. destruct (Z.ltb_spec x y).
  - constructor; auto. constructor. lia.
  - inversion S; subst. constructor; auto. destruct b as [|z b]; cbn; [constructor; lia|]. destruct (x <? z); constructor; [lia|]. inversion H3; auto.
Qed.
Lemma loop_sorted : forall inr l i b, Sorted Z.le b -> Sorted Z.le (median_loop inr i b l).
Proof. induction l as [|a l IH]; intros i b S; cbn; auto. apply IH. destruct (inr i); auto. apply insert_sorted; auto. Qed.
Lemma loop_perm : forall inr l n b, Permutation (median_loop inr (Z.of_nat n) b l) (map snd (filter (fun p => inr (Z.of_nat (fst p))) (combine (seq n (length l)) l)) ++ b).
Proof.
  induction l as [|a l IH]; intros n b; cbn [median_loop length seq combine filter map app]; auto. replace (Z.of_nat n + 1) with (Z.of_nat (S n)) by lia. rewrite IH. cbn [fst]. destruct (inr (Z.of_nat n)); auto.
  cbn [map snd app]. rewrite insert_perm. symmetry. apply Permutation_middle.
Qed.
Lemma loop_chosen : forall inr l, Permutation (median_loop inr 0 [] l) (chosen inr l).
Proof. intros inr l. pose proof (loop_perm inr l 0 []) as H. rewrite app_nil_r in H. exact H. Qed.
Lemma median_odd : forall inr l, Nat.odd (length (chosen inr l)) = true -> exists x, median inr l = Some (Some x) /\ is_middle x (chosen inr l).
Proof.
  intros inr l O. pose proof (loop_chosen inr l) as P. pose proof (loop_sorted inr l 0 [] (Sorted_nil _)) as S. unfold median. rewrite <- (Permutation_length P) in O. revert P S O. generalize (median_loop inr 0 [] l). intros b P S O.
  destruct b as [|y b]; [discriminate|]. rewrite O. apply Nat.odd_spec in O. destruct O as [k K].
  assert (L : (length (y :: b) / 2 = k)%nat). { rewrite K. rewrite Nat.add_comm, Nat.mul_comm, Nat.div_add by lia. reflexivity. }
  rewrite L. destruct (nth_error (y :: b) k) as [x|] eqn:N; [|exfalso; apply nth_error_None in N; lia].
  exists x. split; auto. exists (y :: b), k. split; [symmetry; auto|]. auto.
Qed.
Lemma median_none : forall inr l, median inr l = None <-> chosen inr l = [].
Proof.
  intros inr l. unfold median. pose proof (loop_chosen inr l) as P. destruct (median_loop inr 0 [] l) as [|x b].
  - apply Permutation_nil in P. tauto.
  - split; [discriminate|]. intros E. rewrite E in P. apply Permutation_sym, Permutation_nil in P. discriminate.
Qed.
