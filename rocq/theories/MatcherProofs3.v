From Coq Require Import List ZArith NArith Bool Lia.
From Verif Require Import FailModel MatcherModel MatcherSpec MatcherProofs.
Import ListNotations.
Local Open Scope Z_scope.

Lemma every_at : forall f r m v, f_neg f = false -> typed (MEvery r m) v -> times_ok (MEvery r m) (f_times f) ->
  (matches (MPoly f (MEvery r m)) ctx0 v = Null <->
   forall i a, nth_error (members v) i = Some a -> selected (scope f env0) r i -> sem m (mkenv (f_ci f) (f_sq f) 0 longest 1) a).
Proof.
  intros f r m v N T O. rewrite verdict0; [|exact T|cbn [times_ok] in *; replace (1 * f_times f) with (f_times f) by lia; exact O].
  cbn [sem]. rewrite N. unfold within, scope. cbn [env0 e_ci e_sq]. rewrite !orb_false_r. tauto.
Qed.
Lemma every_first : forall f o n m v, f_neg f = false -> 0 <= n <= longest -> o = OpRange n (-1) \/ o = OpEnd n -> typed (MEvery default_range m) v -> times_ok (MEvery default_range m) (f_times f) ->
  (matches (MPoly (apply_op f o) (MEvery default_range m)) ctx0 v = Null <-> forall i a, Z.of_nat i < n -> nth_error (members v) i = Some a -> sem m (mkenv (f_ci f) (f_sq f) 0 longest 1) a).
Proof.
  intros f o n m v N L E T O. unfold longest in L.
  assert (A : apply_op f o = mkflags 0 n (f_times f) (f_neg f) (f_ci f) (f_sq f)) by (destruct E as [-> | ->]; reflexivity). rewrite A. rewrite every_at by auto. cbn [f_ci f_sq].
  assert (S : forall i, selected (scope (mkflags 0 n (f_times f) (f_neg f) (f_ci f) (f_sq f)) env0) default_range i <-> Z.of_nat i < n).
  { intros i. unfold selected, scope, default_range, range_of. cbn. destruct (n =? -1) eqn:Q; [apply Z.eqb_eq in Q; lia|]. lia. }
  split; intros H i a; [intros I M|intros M I]; apply (H i a); auto; apply S; auto.
Qed.
Lemma every_between : forall f s e m v, f_neg f = false -> 0 <= s -> 0 <= e <= longest -> typed (MEvery default_range m) v -> times_ok (MEvery default_range m) (f_times f) ->
  (matches (MPoly (apply_op f (OpRange s e)) (MEvery default_range m)) ctx0 v = Null <-> forall i a, s <= Z.of_nat i < e -> nth_error (members v) i = Some a -> sem m (mkenv (f_ci f) (f_sq f) 0 longest 1) a).
Proof.
  intros f s e m v N L1 L T O. unfold longest in L.
  assert (A : apply_op f (OpRange s e) = mkflags s e (f_times f) (f_neg f) (f_ci f) (f_sq f)) by (cbn; destruct (e =? -1) eqn:Q; [apply Z.eqb_eq in Q; lia|reflexivity]). rewrite A. rewrite every_at by auto. cbn [f_ci f_sq].
  assert (S : forall i, selected (scope (mkflags s e (f_times f) (f_neg f) (f_ci f) (f_sq f)) env0) default_range i <-> s <= Z.of_nat i < e).
  { intros i. unfold selected, scope, default_range, range_of. cbn. destruct (s =? -1) eqn:Q1; [apply Z.eqb_eq in Q1; lia|]. destruct (e =? -1) eqn:Q; [apply Z.eqb_eq in Q; lia|]. cbn. lia. }
  split; intros H i a; [intros I M|intros M I]; apply (H i a); auto; apply S; auto.
Qed.
Lemma every_template : forall s e m v, 0 <= s <= longest -> e = -1 \/ 0 <= e <= longest -> typed (MEvery (range_of s e) m) v -> times_ok (MEvery (range_of s e) m) 1 ->
  (matches (MEvery (range_of s e) m) ctx0 v = Null <-> forall i a, (if e =? -1 then Z.of_nat i < s else s <= Z.of_nat i < e) -> nth_error (members v) i = Some a -> sem m env0 a).
Proof.
  intros s e m v L1 L T O. unfold longest in *. rewrite verdict0 by auto. cbn [sem]. change (within env0) with env0.
  assert (S : forall i, selected env0 (range_of s e) i <-> if e =? -1 then Z.of_nat i < s else s <= Z.of_nat i < e).
  { intros i. unfold selected, range_of, env0, longest. cbn. destruct (e =? -1) eqn:Q; cbn; [lia|]. destruct L as [->|L]; [discriminate|]. lia. }
  split; intros H i a; [intros I M|intros M I]; apply (H i a); auto; apply S; auto.
Qed.
Lemma map_nth_pair : forall (l : list (val * val)) i a, nth_error (members (VMap l)) i = Some a -> exists k v, nth_error l i = Some (k, v) /\ a = VPair k v.
Proof. intros l i a H. cbn in H. rewrite nth_error_map in H. destruct (nth_error l i) as [[k v]|]; [|discriminate]. cbn in H. inversion H. eauto. Qed.
Lemma has2_spec : forall n k v l, (forall a b, In (a, b) l -> typed k a /\ typed v b) -> n = 1 \/ (nohas k = true /\ nohas v = true) -> times_ok k n -> times_ok v n ->
  (matches (MPoly (apply_op flags0 (OpTimes n)) (has2 k v)) ctx0 (VMap l) = Null <->
   exists ps, NoDup ps /\ n <= Z.of_nat (length ps) /\ forall i, In i ps -> Z.of_nat i < longest /\ exists a b, nth_error l i = Some (a, b) /\ sem k env0 a /\ sem v env0 b).
Proof.
  intros n k v l T O Ok Ov. rewrite verdict0.
  - cbn [sem has2 f_neg apply_op flags0]. split; intros (ps & ND & L & H); exists ps; (split; [auto|]); (split; [unfold scope in *; cbn [e_times f_times env0] in *; rewrite ?Z.mul_1_l, ?Z.mul_1_r in *; lia|]); intros i I; destruct (H i I) as (S & X).
    + destruct X as (a & N & (x & y & E & Sx & Sy)). apply map_nth_pair in N. destruct N as (k' & v' & N & ->). cbn [subject] in E. inversion E; subst. split; [unfold selected in S; cbn in S; unfold longest, range_max in *; lia|]. eauto 6.
    + destruct X as (a & b & N & Sa & Sb). split; [unfold selected, longest, range_max in *; cbn; unfold longest, range_max in *; lia|]. exists (VPair a b). split; [cbn; rewrite nth_error_map, N; auto|]. cbn [subject]. exists a, b. auto.
  - cbn [typed has2]. intros a I. cbn [subject]. apply in_map_iff in I. destruct I as ((x, y) & <- & I). destruct (T x y I) as [T1 T2]. exists x, y. auto.
  - cbn [times_ok has2 apply_op flags0 f_times nohas]. replace (1 * n * 1) with n by lia. replace (1 * n) with n by lia. rewrite andb_true_iff. tauto.
Qed.
Lemma sem_any : forall e a, sem any_value e a. Proof. intros. cbn. auto. Qed.
Lemma has_key_spec : forall n k l, (forall a b, In (a, b) l -> typed k a) -> n = 1 \/ nohas k = true -> times_ok k n ->
  (matches (MPoly (apply_op flags0 (OpTimes n)) (has_key k)) ctx0 (VMap l) = Null <->
   exists ps, NoDup ps /\ n <= Z.of_nat (length ps) /\ forall i, In i ps -> Z.of_nat i < longest /\ exists a b, nth_error l i = Some (a, b) /\ sem k env0 a).
Proof.
  intros n k l T O Ok. unfold has_key. rewrite has2_spec; auto.
  - split; intros (ps & ND & L & H); exists ps; (split; [auto|]); (split; [auto|]); intros i I; destruct (H i I) as (S & a & b & N & X); (split; [auto|]); exists a, b; [tauto|]. split; auto. split; auto. apply sem_any.
  - intros a b I. split; [eauto|cbn; auto].
  - destruct O; auto.
  - cbn. auto.
Qed.
Lemma has_value_spec : forall n v l, (forall a b, In (a, b) l -> typed v b) -> n = 1 \/ nohas v = true -> times_ok v n ->
  (matches (MPoly (apply_op flags0 (OpTimes n)) (has_value v)) ctx0 (VMap l) = Null <->
   exists ps, NoDup ps /\ n <= Z.of_nat (length ps) /\ forall i, In i ps -> Z.of_nat i < longest /\ exists a b, nth_error l i = Some (a, b) /\ sem v env0 b).
Proof.
  intros n v l T O Ok. unfold has_value. rewrite has2_spec; auto.
  - split; intros (ps & ND & L & H); exists ps; (split; [auto|]); (split; [auto|]); intros i I; destruct (H i I) as (S & a & b & N & X); (split; [auto|]); exists a, b; [tauto|]. split; auto. split; auto. apply sem_any.
  - intros a b I. split; [cbn; auto|eauto].
  - destruct O; auto.
  - cbn. auto.
Qed.
(** Has(k) on a map with one repetition: some key *)
Lemma has_on_map : forall k l, is_pair k = false -> (forall a b, In (a, b) l -> typed k a) -> times_ok k 1 ->
  (matches (MHas default_range k) ctx0 (VMap l) = Null <-> exists i a b, Z.of_nat i < longest /\ nth_error l i = Some (a, b) /\ sem k env0 a).
Proof.
  intros k l P T O. assert (SB : forall a b, subject (VMap l) k (VPair a b) = a) by (intros a b; destruct k as [f []| | | | | | | | | | | | | | | |]; try reflexivity; discriminate).
  rewrite verdict0.
  - cbn [sem]. change (within env0) with env0. split.
    + intros (ps & ND & L & H). destruct ps as [|i ps]; [cbn in L; lia|]. destruct (H i (or_introl eq_refl)) as (S & a & N & Q). apply map_nth_pair in N. destruct N as (x & y & N & ->). rewrite SB in Q.
      exists i, x, y. split; [unfold selected in S; cbn in S; unfold longest, range_max in *; lia|]. auto.
    + intros (i & a & b & L & N & Q). exists [i]. split; [repeat constructor; auto|]. split; [cbn; lia|]. intros j [<-|[]]. split; [unfold selected, longest, range_max in *; cbn; unfold longest, range_max in *; lia|]. exists (VPair a b). split; [cbn; rewrite nth_error_map, N; auto|]. rewrite SB. auto.
  - cbn [typed]. intros a I. apply in_map_iff in I. destruct I as ((x, y) & <- & I). cbn [fst snd]. rewrite SB. eauto.
  - cbn [times_ok]. auto.
Qed.
(** positions beyond the limit *)
Lemma beyond_limit : forall n m, 0 <= n -> n = longest -> sem m env0 (VNum 0) -> typed m (VNum 0) -> typed m (VNum 1) -> times_ok m 1 -> matches (MEvery default_range m) ctx0 (VSeq (repeat (VNum 0) (Z.to_nat n) ++ [VNum 1])) = Null.
Proof.
  intros n m P E S0 T0 T1 O. rewrite verdict0.
  - cbn [sem]. change (within env0) with env0. intros i a N S. unfold selected in S. cbn in S. unfold longest in *.
    cbn [members] in N. rewrite nth_error_app1 in N by (rewrite repeat_length; lia). apply nth_error_In, repeat_spec in N. subst. auto.
  - cbn [typed members]. intros a I. apply in_app_or in I. destruct I as [I|[<-|[]]]; auto. apply repeat_spec in I. subst. auto.
  - cbn [times_ok]. auto.
Qed.
