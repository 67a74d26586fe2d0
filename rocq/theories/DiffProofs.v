From Coq Require Import List NArith ZArith QArith Bool Arith Lia.
From Verif Require Import Base DiffModel DiffSpec.
Import ListNotations.

Local Open Scope nat_scope.
(** * Edit distance *)
Section Align.
  Variable A : Type.
  Variable eqd : forall a b : A, {a = b} + {a <> b}.

  Inductive aligned : nat -> list A -> list A -> Prop :=
  | al_nil : aligned 0 [] []
  | al_keep : forall n a x y, aligned n x y -> aligned n (a :: x) (a :: y)
  | al_sub : forall n a b x y, aligned n x y -> aligned (S n) (a :: x) (b :: y)
  | al_ins : forall n b x y, aligned n x y -> aligned (S n) x (b :: y)
  | al_del : forall n a x y, aligned n x y -> aligned (S n) (a :: x) y.

  Lemma aligned_refl : forall x, aligned 0 x x.
  Proof. induction x; constructor; auto. Qed.

  Lemma aligned_sym : forall n x y, aligned n x y -> aligned n y x.
  Proof. induction 1; constructor; auto. Qed.

  Lemma aligned_app : forall n m x y z w, aligned n x y -> aligned m z w -> aligned (n + m) (x ++ z) (y ++ w).
  Proof. induction 1; intros; simpl; try (constructor; auto; fail); auto. Qed.

  Lemma aligned_rev : forall n x y, aligned n x y -> aligned n (rev x) (rev y).
  Proof.
    induction 1; simpl.
    - constructor.
    - replace n with (n + 0) by lia. apply aligned_app; auto. apply aligned_refl.
    - replace (S n) with (n + 1) by lia. apply aligned_app; auto. repeat constructor.
    - replace (S n) with (n + 1) by lia. rewrite <- (app_nil_r (rev x)).
      apply aligned_app; auto. repeat constructor.
    - replace (S n) with (n + 1) by lia. rewrite <- (app_nil_r (rev y)).
      apply aligned_app; auto. repeat constructor.
  Qed.

  (** composition: the triangle inequality for alignments *)
  Lemma aligned_trans : forall n x y, aligned n x y -> forall m z, aligned m y z ->
    exists k, k <= n + m /\ aligned k x z.
  Proof.
    induction 1; intros m z Hz.
    - exists m. split; [lia|auto].
    - remember (a :: y) as w eqn:E. revert a x y n H IHaligned E.
      induction Hz; intros a' x' y' n' H IH E; inversion E; subst.
      + destruct (IH _ _ Hz) as (k & Hk & Ha). exists k. split; [lia|constructor; auto].
      + destruct (IH _ _ Hz) as (k & Hk & Ha). exists (S k). split; [lia|constructor; auto].
      + destruct (IHHz _ _ _ _ H IH eq_refl) as (k & Hk & Ha). exists (S k). split; [lia|apply al_ins; auto].
      + destruct (IH _ _ Hz) as (k & Hk & Ha). exists (S k). split; [lia|constructor; auto].
    - remember (b :: y) as w eqn:E. revert a b x y n H IHaligned E.
      induction Hz; intros a' b' x' y' n' H IH E; inversion E; subst.
      + destruct (IH _ _ Hz) as (k & Hk & Ha). exists (S k). split; [lia|constructor; auto].
      + destruct (IH _ _ Hz) as (k & Hk & Ha). exists (S k). split; [lia|constructor; auto].
      + destruct (IHHz a' _ _ _ _ H IH eq_refl) as (k & Hk & Ha). exists (S k). split; [lia|apply al_ins; auto].
      + destruct (IH _ _ Hz) as (k & Hk & Ha). exists (S k). split; [lia|constructor; auto].
    - remember (b :: y) as w eqn:E. revert b x y n H IHaligned E.
      induction Hz; intros b' x' y' n' H IH E; inversion E; subst.
      + destruct (IH _ _ Hz) as (k & Hk & Ha). exists (S k). split; [lia|constructor; auto].
      + destruct (IH _ _ Hz) as (k & Hk & Ha). exists (S k). split; [lia|constructor; auto].
      + destruct (IHHz _ _ _ _ H IH eq_refl) as (k & Hk & Ha). exists (S k). split; [lia|apply al_ins; auto].
      + destruct (IH _ _ Hz) as (k & Hk & Ha). exists k. split; [lia|auto].
    - destruct (IHaligned _ _ Hz) as (k & Hk & Ha). exists (S k). split; [lia|constructor; auto].
  Qed.

  Lemma aligned_prefix : forall u n x y, aligned n x y -> aligned n (u ++ x) (u ++ y).
  Proof. induction u; simpl; intros; auto. constructor; auto. Qed.

  Lemma edit1_aligned : forall (x y : list A), edit1 x y -> aligned 1 x y.
  Proof.
    intros x y H. destruct H; apply aligned_prefix; constructor; apply aligned_refl.
  Qed.

  Lemma edits_aligned : forall n (x y : list A), edits n x y -> exists k, k <= n /\ aligned k x y.
  Proof.
    induction 1.
    - exists 0. split; auto. apply aligned_refl.
    - destruct IHedits as (k & Hk & Ha).
      destruct (aligned_trans _ _ _ (edit1_aligned _ _ H) _ _ Ha) as (k' & Hk' & Ha').
      exists k'. split; [lia|auto].
  Qed.

  Lemma edit1_cons : forall (a : A) x y, edit1 x y -> edit1 (a :: x) (a :: y).
  Proof.
    intros a x y H. destruct H.
    - apply (edit_insert A (a :: u)).
    - apply (edit_delete A (a :: u)).
    - apply (edit_substitute A (a :: u)).
  Qed.

  Lemma edits_cons : forall n (a : A) x y, edits n x y -> edits n (a :: x) (a :: y).
  Proof. induction 1; econstructor; eauto. apply edit1_cons; auto. Qed.

  Lemma aligned_edits : forall n x y, aligned n x y -> edits n x y.
  Proof.
    induction 1.
    - constructor.
    - apply edits_cons; auto.
    - econstructor; [apply (edit_substitute A [] a b)|]. simpl. apply edits_cons; auto.
    - econstructor; [apply (edit_insert A [] b)|]. simpl. apply edits_cons; auto.
    - econstructor; [apply (edit_delete A [] a)|]. simpl. auto.
  Qed.

  (** structural distance *)
  Fixpoint dist (x : list A) : list A -> nat :=
    match x with
    | [] => fun y => length y
    | a :: x' =>
        fix go (y : list A) : nat :=
          match y with
          | [] => S (length x')
          | b :: y' => Nat.min (Nat.min (S (go y')) (S (dist x' y))) (dist x' y' + if eqd a b then 0 else 1)
          end
    end.

  Lemma dist_nil_r : forall x, dist x [] = length x.
  Proof. destruct x; reflexivity. Qed.

  Lemma dist_cons : forall a x b y,
    dist (a :: x) (b :: y) =
    Nat.min (Nat.min (S (dist (a :: x) y)) (S (dist x (b :: y)))) (dist x y + if eqd a b then 0 else 1).
  Proof. reflexivity. Qed.

  Lemma aligned_len_l : forall y, aligned (length y) [] y.
  Proof. induction y; simpl; constructor; auto. Qed.
  Lemma aligned_len_r : forall x, aligned (length x) x [].
  Proof. induction x; simpl; constructor; auto. Qed.

  Lemma dist_aligned : forall x y, aligned (dist x y) x y.
  Proof.
    induction x as [|a x IHx].
    - intros. simpl. apply aligned_len_l.
    - induction y as [|b y IHy].
      + rewrite dist_nil_r. apply aligned_len_r.
      + rewrite dist_cons.
        destruct (Nat.min_spec (Nat.min (S (dist (a :: x) y)) (S (dist x (b :: y)))) (dist x y + if eqd a b then 0 else 1))
          as [[_ ->]|[_ ->]].
        * destruct (Nat.min_spec (S (dist (a :: x) y)) (S (dist x (b :: y)))) as [[_ ->]|[_ ->]]; [apply al_ins|apply al_del]; auto.
        * destruct (eqd a b).
          -- subst. rewrite Nat.add_0_r. constructor. auto.
          -- rewrite Nat.add_1_r. apply al_sub. auto.
  Qed.

  Lemma dist_ins : forall b x y, dist x (b :: y) <= S (dist x y).
  Proof. destruct x; intros. simpl. lia. rewrite dist_cons. lia. Qed.
  Lemma dist_del : forall a x y, dist (a :: x) y <= S (dist x y).
  Proof. destruct y; intros. rewrite !dist_nil_r. simpl. lia. rewrite dist_cons. lia. Qed.

  Lemma dist_le : forall n x y, aligned n x y -> dist x y <= n.
  Proof.
    induction 1.
    - simpl. lia.
    - rewrite dist_cons. destruct (eqd a a); try contradiction. lia.
    - rewrite dist_cons. destruct (eqd a b); lia.
    - pose proof (dist_ins b x y). lia.
    - pose proof (dist_del a x y). lia.
  Qed.

  Lemma min_edits_dist : forall x y, min_edits x y (dist x y).
  Proof.
    intros. split.
    - apply aligned_edits, dist_aligned.
    - intros n H. apply edits_aligned in H. destruct H as (k & Hk & Ha). apply dist_le in Ha. lia.
  Qed.

  Lemma min_edits_unique : forall (x y : list A) d d', min_edits x y d -> min_edits x y d' -> d = d'.
  Proof. intros x y d d' [H1 H2] [H3 H4]. specialize (H2 _ H3). specialize (H4 _ H1). lia. Qed.

  Lemma dist_rev : forall x y, dist (rev x) (rev y) = dist x y.
  Proof.
    assert (forall x y, dist (rev x) (rev y) <= dist x y) as H.
    { intros. apply dist_le, aligned_rev, dist_aligned. }
    intros. apply Nat.le_antisymm; auto.
    pose proof (H (rev x) (rev y)) as H'. rewrite !rev_involutive in H'. auto.
  Qed.

  Lemma dist_bounds : forall x y, dist x y <= Nat.max (length x) (length y).
  Proof.
    induction x as [|a x IHx]; intros y.
    - simpl. lia.
    - destruct y as [|b y].
      + rewrite dist_nil_r. simpl. lia.
      + rewrite dist_cons. specialize (IHx y). cbn [length]. destruct (eqd a b); lia.
  Qed.

  Lemma aligned_zero : forall x y, aligned 0 x y -> x = y.
  Proof.
    intros x y H. remember 0 as n. revert Heqn. induction H; intros; try discriminate; auto.
    f_equal. auto.
  Qed.

  Lemma dist_zero : forall x y, dist x y = 0 <-> x = y.
  Proof.
    split; intro H.
    - pose proof (dist_aligned x y) as D. rewrite H in D. apply aligned_zero; auto.
    - subst. apply Nat.le_0_r. apply dist_le. apply aligned_refl.
  Qed.
End Align.
Arguments aligned {A}. Arguments dist {A}.

Local Open Scope N_scope.

Lemma through_int_id : forall i, i < 2 ^ 31 -> through_int i = i.
Proof.
  intros i H. unfold through_int.
  rewrite N.mod_small by (change (2^32) with 4294967296; change (2^31) with 2147483648 in H; lia).
  apply N.ltb_lt in H. rewrite H. reflexivity.
Qed.

Lemma iota_length : forall n s, List.length (iota s n) = n.
Proof. induction n; simpl; intros; auto. Qed.

Lemma iota_nth : forall n s k d, (k < n)%nat -> nth k (iota s n) d = s + N.of_nat k.
Proof.
  induction n; intros; [lia|].
  destruct k; simpl iota; simpl nth; [lia|]. rewrite IHn by lia. lia.
Qed.

Lemma iota_map_id : forall n s, s + N.of_nat n <= 2 ^ 31 -> List.map through_int (iota s n) = iota s n.
Proof.
  induction n; intros s H; [reflexivity|].
  simpl iota. simpl List.map. rewrite through_int_id by lia. f_equal. apply IHn. lia.
Qed.

Lemma min3_of_nat : forall a b c k,
  N.min (N.min (1 + N.of_nat a) (1 + N.of_nat b)) (N.of_nat c + N.of_nat k) =
  N.of_nat (Nat.min (Nat.min (S a) (S b)) (c + k)).
Proof. intros. lia. Qed.

Section Lev.
  Variable caseless : bool.
  Definition fd := fold_char caseless.
  Definition D (x y : bytes) : N := N.of_nat (dist N.eq_dec (List.map fd x) (List.map fd y)).

  (** The column after processing the reversed prefix [x] of s1, seen from the reversed prefix [q] of s2 that has
      already been passed, for the remaining characters [s2]. *)
  Fixpoint col_from (x q s2 : bytes) : list N :=
    D x q :: match s2 with [] => [] | c :: s2' => col_from x (c :: q) s2' end.

  Lemma lev_inner_correct : forall s2 x c1 q,
    lev_inner caseless c1 s2 (col_from x q s2) (D (c1 :: x) q) = List.tl (col_from (c1 :: x) q s2).
  Proof.
    induction s2 as [|c2 s2 IH]; intros x c1 q.
    - reflexivity.
    - cbn [col_from lev_inner List.tl].
      destruct s2 as [|c3 s2']; cbn [col_from].
      + cbn [lev_inner]. f_equal.
        unfold D. cbn [List.map]. rewrite dist_cons. rewrite char_eq_fold_b.
        fold fd. destruct (N.eq_dec (fd c1) (fd c2)) as [e|e].
        * rewrite (proj2 (N.eqb_eq _ _) e). exact (min3_of_nat _ _ _ 0).
        * rewrite (proj2 (N.eqb_neq _ _) e). exact (min3_of_nat _ _ _ 1).
      + cbn zeta.
        assert (E : N.min (N.min (1 + D (c1 :: x) q) (1 + D x (c2 :: q)))
                  (D x q + (if char_eq caseless c1 c2 then 0 else 1)) = D (c1 :: x) (c2 :: q)).
        { unfold D. cbn [List.map]. rewrite dist_cons. rewrite char_eq_fold_b.
          fold fd. destruct (N.eq_dec (fd c1) (fd c2)) as [e|e].
          - rewrite (proj2 (N.eqb_eq _ _) e). exact (min3_of_nat _ _ _ 0).
          - rewrite (proj2 (N.eqb_neq _ _) e). exact (min3_of_nat _ _ _ 1). }
        rewrite E. f_equal. exact (IH x c1 (c2 :: q)).
  Qed.

  Lemma D_nil_r : forall x, D x [] = N.of_nat (List.length x).
  Proof. intros. unfold D. simpl List.map. rewrite dist_nil_r. rewrite map_length. reflexivity. Qed.

  Lemma lev_outer_correct : forall s1 s2 x,
    lev_outer caseless s1 s2 (N.of_nat (List.length x)) (col_from x [] s2) = col_from (rev s1 ++ x) [] s2.
  Proof.
    induction s1 as [|c1 s1 IH]; intros s2 x.
    - reflexivity.
    - cbn [lev_outer]. cbn zeta.
      replace (N.of_nat (List.length x) + 1) with (D (c1 :: x) []) by (rewrite D_nil_r; simpl List.length; lia).
      rewrite lev_inner_correct.
      replace (D (c1 :: x) [] :: List.tl (col_from (c1 :: x) [] s2)) with (col_from (c1 :: x) [] s2)
        by (destruct s2; reflexivity).
      rewrite D_nil_r. rewrite IH. simpl rev. rewrite <- app_assoc. reflexivity.
  Qed.

  Lemma col_from_nil : forall s2 q, col_from [] q s2 = iota (N.of_nat (List.length q)) (S (List.length s2)).
  Proof.
    induction s2 as [|c s2 IH]; intros q; cbn [col_from].
    - unfold D. simpl. rewrite map_length. reflexivity.
    - rewrite IH. cbn [List.length]. cbn [iota]. f_equal.
      + unfold D. simpl. rewrite map_length. reflexivity.
      + f_equal; [lia|].  f_equal. lia.
  Qed.

  Lemma col_from_last : forall s2 x q d, nth (List.length s2) (col_from x q s2) d = D x (rev s2 ++ q).
  Proof.
    induction s2 as [|c s2 IH]; intros x q d; cbn [col_from List.length nth].
    - reflexivity.
    - rewrite IH. simpl rev. rewrite <- app_assoc. reflexivity.
  Qed.

  Lemma levenshtein_dist : forall s1 s2, N.of_nat (List.length s2) < 2 ^ 31 ->
    levenshtein caseless s1 s2 = N.of_nat (dist N.eq_dec (fold_str caseless s1) (fold_str caseless s2)).
  Proof.
    intros s1 s2 H. unfold levenshtein, lev_init.
    rewrite iota_map_id by lia.
    change 0 with (N.of_nat (List.length (@nil N))) at 1 2.
    rewrite <- col_from_nil. rewrite lev_outer_correct. rewrite col_from_last.
    unfold D. rewrite !app_nil_r. rewrite !map_rev. rewrite dist_rev. reflexivity.
  Qed.
End Lev.

Lemma levenshtein_min_edits : forall cl s1 s2, N.of_nat (List.length s2) < 2 ^ 31 ->
  min_edits (fold_str cl s1) (fold_str cl s2) (N.to_nat (levenshtein cl s1 s2)).
Proof.
  intros. rewrite levenshtein_dist by auto. rewrite Nnat.Nat2N.id. apply min_edits_dist.
Qed.

Lemma min_edits_sym : forall A (eqd : forall a b : A, {a = b} + {a <> b}) (x y : list A) d,
  min_edits x y d -> min_edits y x d.
Proof.
  intros A eqd x y d H.
  assert (d = dist eqd y x) as ->.
  { apply (min_edits_unique A x y); auto.
    pose proof (min_edits_dist A eqd x y) as H'.
    assert (dist eqd x y = dist eqd y x) as E.
    { apply Nat.le_antisymm; apply dist_le, aligned_sym, dist_aligned. }
    rewrite E in H'. auto. }
  apply min_edits_dist.
Qed.

Lemma levenshtein_sym : forall cl s1 s2,
  N.of_nat (List.length s1) < 2 ^ 31 -> N.of_nat (List.length s2) < 2 ^ 31 ->
  levenshtein cl s1 s2 = levenshtein cl s2 s1.
Proof.
  intros. rewrite !levenshtein_dist by auto. f_equal.
  apply Nat.le_antisymm; apply dist_le, aligned_sym, dist_aligned.
Qed.

Lemma levenshtein_zero : forall cl s1 s2, N.of_nat (List.length s2) < 2 ^ 31 ->
  levenshtein cl s1 s2 = 0 <-> fold_str cl s1 = fold_str cl s2.
Proof.
  intros. rewrite levenshtein_dist by auto. rewrite <- (dist_zero _ N.eq_dec). lia.
Qed.

Lemma levenshtein_triangle : forall cl s1 s2 s3,
  N.of_nat (List.length s2) < 2 ^ 31 -> N.of_nat (List.length s3) < 2 ^ 31 ->
  levenshtein cl s1 s3 <= levenshtein cl s1 s2 + levenshtein cl s2 s3.
Proof.
  intros. rewrite !levenshtein_dist by auto.
  destruct (aligned_trans _ _ _ _ (dist_aligned _ N.eq_dec (fold_str cl s1) (fold_str cl s2))
              _ _ (dist_aligned _ N.eq_dec (fold_str cl s2) (fold_str cl s3))) as (k & Hk & Ha).
  apply (dist_le _ N.eq_dec) in Ha. lia.
Qed.

(** * Similarity *)
Lemma frac_nonneg : forall (d : Z) (n : Z), (0 <= d)%Z -> (0 < n)%Z ->
  (0 <= inject_Z d / (inject_Z n * (1 # 2)))%Q.
Proof.
  intros. apply Qle_shift_div_l.
  - unfold Qlt; simpl; lia.
  - unfold Qle; simpl; lia.
Qed.

Lemma estimate_le_1 : forall cl s1 s2, (estimate cl s1 s2 <= 1)%Q.
Proof.
  intros cl s1 s2. unfold estimate.
  assert (G : forall a b : bytes, (a <> [] \/ b <> []) ->
     (1 - inject_Z (Z.of_N (levenshtein cl a b)) / (inject_Z (Z.of_nat (List.length a + List.length b)) * (1 # 2)) <= 1)%Q).
  { intros a b Hab.
    assert (0 < Z.of_nat (List.length a + List.length b))%Z.
    { destruct a, b; simpl; try lia. destruct Hab; contradiction. }
    pose proof (frac_nonneg (Z.of_N (levenshtein cl a b)) _ ltac:(lia) H) as F.
    apply (Qplus_le_l _ _ (inject_Z (Z.of_N (levenshtein cl a b)) / (inject_Z (Z.of_nat (List.length a + List.length b)) * (1 # 2)))).
    ring_simplify. rewrite <- (Qplus_0_l 1) at 1.
    apply Qplus_le_l. exact F. }
  destruct s1, s2; try apply Qle_refl; apply G; (left; discriminate) || (right; discriminate).
Qed.

Lemma estimate_eq_1 : forall cl s1 s2, N.of_nat (List.length s2) < 2 ^ 31 ->
  (estimate cl s1 s2 == 1)%Q <-> fold_str cl s1 = fold_str cl s2.
Proof.
  intros cl s1 s2 H. rewrite <- (levenshtein_zero cl s1 s2 H). unfold estimate.
  assert (G : forall a b : bytes, (a <> [] \/ b <> []) ->
     (1 - inject_Z (Z.of_N (levenshtein cl a b)) / (inject_Z (Z.of_nat (List.length a + List.length b)) * (1 # 2)) == 1)%Q
       <-> levenshtein cl a b = 0).
  { intros a b Hab.
    assert (Hn : (0 < Z.of_nat (List.length a + List.length b))%Z).
    { destruct a, b; simpl; try lia. destruct Hab; contradiction. }
    set (d := levenshtein cl a b) in *. set (n := Z.of_nat (List.length a + List.length b)) in *.
    split; intro E.
    - assert (E2 : (inject_Z (Z.of_N d) / (inject_Z n * (1 # 2)) == 0)%Q).
      { apply (Qplus_inj_r _ _ (1 - inject_Z (Z.of_N d) / (inject_Z n * (1 # 2)))%Q).
        rewrite E at 2. ring. }
      assert (Hnz : ~ (inject_Z n * (1 # 2) == 0)%Q).
      { unfold Qeq; simpl. lia. }
      assert (E3 : (inject_Z (Z.of_N d) == 0)%Q).
      { rewrite <- (Qmult_div_r (inject_Z (Z.of_N d)) _ Hnz). rewrite E2. ring. }
      unfold Qeq in E3; simpl in E3. lia.
    - rewrite E. simpl Z.of_N. unfold Qdiv. setoid_replace (inject_Z 0) with 0%Q by reflexivity. ring. }
  destruct s1 as [|a s1], s2 as [|b s2]; try (apply G; (left; discriminate) || (right; discriminate)).
  split; intros; reflexivity.
Qed.

Lemma dist_le_max : forall A (eqd : forall a b : A, {a = b} + {a <> b}) (x y : list A),
  (dist eqd x y <= List.length x + List.length y)%nat.
Proof.
  intros. apply dist_le. revert y. induction x as [|a x IH]; intro y.
  - induction y as [|b y IHy]; simpl; [apply al_nil|]. apply al_ins. exact IHy.
  - simpl. apply al_del. apply IH.
Qed.

Lemma estimate_ge_m1 : forall cl s1 s2, N.of_nat (List.length s2) < 2 ^ 31 -> (-(1) <= estimate cl s1 s2)%Q.
Proof.
  intros cl s1 s2 H. unfold estimate.
  assert (G : forall a b : bytes, N.of_nat (List.length b) < 2 ^ 31 -> (a <> [] \/ b <> []) ->
     (-(1) <= 1 - inject_Z (Z.of_N (levenshtein cl a b)) / (inject_Z (Z.of_nat (List.length a + List.length b)) * (1 # 2)))%Q).
  { intros a b Hb Hab.
    assert (Hn : (0 < Z.of_nat (List.length a + List.length b))%Z).
    { destruct a, b; simpl; try lia. destruct Hab; contradiction. }
    assert (Hd : (Z.of_N (levenshtein cl a b) <= Z.of_nat (List.length a + List.length b))%Z).
    { rewrite levenshtein_dist by auto.
      pose proof (dist_le_max _ N.eq_dec (fold_str cl a) (fold_str cl b)) as L.
      assert (Ea : List.length (fold_str cl a) = List.length a) by apply map_length.
      assert (Eb : List.length (fold_str cl b) = List.length b) by apply map_length.
      rewrite Ea, Eb in L. clear -L. rewrite nat_N_Z. apply Nat2Z.inj_le. exact L. }
    set (d := Z.of_N (levenshtein cl a b)) in *. set (n := Z.of_nat (List.length a + List.length b)) in *.
    assert (F : (inject_Z d / (inject_Z n * (1 # 2)) <= 2)%Q).
    { apply Qle_shift_div_r.
      - unfold Qlt; simpl. lia.
      - clearbody d n. unfold Qle, Qmult, inject_Z. cbn [Qnum Qden Pos.mul]. lia. }
    apply (Qplus_le_l _ _ (inject_Z d / (inject_Z n * (1 # 2)) + 1)).
    ring_simplify. exact F. }
  destruct s1 as [|a s1], s2 as [|b s2]; try (apply G; [exact H|(left; discriminate) || (right; discriminate)]).
  unfold Qle; simpl. lia.
Qed.

(** the score in terms of the least number of edits *)
Lemma estimate_value : forall cl s1 s2 d, N.of_nat (List.length s2) < 2 ^ 31 -> min_edits (fold_str cl s1) (fold_str cl s2) d ->
  let n := inject_Z (Z.of_nat (List.length s1 + List.length s2)) in
  (n * estimate cl s1 s2 == n - 2 * inject_Z (Z.of_nat d))%Q.
Proof.
  intros cl s1 s2 d H [M1 M2] n.
  destruct (levenshtein_min_edits cl s1 s2 H) as [L1 L2].
  assert (E : d = N.to_nat (levenshtein cl s1 s2)) by (apply Nat.le_antisymm; auto).
  assert (Z : inject_Z (Z.of_nat d) = inject_Z (Z.of_N (levenshtein cl s1 s2))) by (rewrite E, N_nat_Z; reflexivity).
  rewrite Z. unfold n, estimate.
  destruct s1 as [|a s1]; [destruct s2 as [|b s2]|].
  - reflexivity.
  - field. intro Q. discriminate Q.
  - field. intro Q. destruct s2; discriminate Q.
Qed.
