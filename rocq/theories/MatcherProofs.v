From Coq Require Import List ZArith NArith Bool Sorted Permutation Lia.
From Verif Require Import FailModel MatcherModel MatcherSpec.
Import ListNotations.
Local Open Scope Z_scope.

(** induction on matchers with lists inside *)
Section ind.
  Variable P : matcher -> Prop.
  Hypothesis HPoly : forall f m, P m -> P (MPoly f m).
  Hypothesis HBase : forall p, P (MBase p).
  Hypothesis HNot : forall m, P m -> P (MNot m).
  Hypothesis HCond : forall b x y, P x -> P y -> P (MCond b x y).
  Hypothesis HAnd : forall x y, P x -> P y -> P (MAnd x y).
  Hypothesis HOr : forall x y, P x -> P y -> P (MOr x y).
  Hypothesis HAll : forall l, Forall P l -> P (MAllOf l).
  Hypothesis HAny : forall l, Forall P l -> P (MAnyOf l).
  Hypothesis HNone : forall l, Forall P l -> P (MNoneOf l).
  Hypothesis HCase : forall m, P m -> P (MCaseLess m).
  Hypothesis HSpace : forall m, P m -> P (MSpaceLess m).
  Hypothesis HPair : forall x y, P x -> P y -> P (MPair x y).
  Hypothesis HEvery : forall r m, P m -> P (MEvery r m).
  Hypothesis HHas : forall r m, P m -> P (MHas r m).
  Hypothesis HList : forall r l, Forall P l -> P (MListOf r l).
  Hypothesis HCount : forall m, P m -> P (MCountOf m).
  Hypothesis HMax : forall b r m, P m -> P (MMaxMin b r m).
  Fixpoint matcher_ind' (m : matcher) : P m :=
    let all := fix all (l : list matcher) : Forall P l := match l with [] => Forall_nil P | m1 :: r => Forall_cons m1 (matcher_ind' m1) (all r) end in
    match m with
    | MPoly f m1 => HPoly f m1 (matcher_ind' m1) | MBase p => HBase p | MNot m1 => HNot m1 (matcher_ind' m1)
    | MCond b x y => HCond b x y (matcher_ind' x) (matcher_ind' y) | MAnd x y => HAnd x y (matcher_ind' x) (matcher_ind' y) | MOr x y => HOr x y (matcher_ind' x) (matcher_ind' y)
    | MAllOf l => HAll l (all l) | MAnyOf l => HAny l (all l) | MNoneOf l => HNone l (all l)
    | MCaseLess m1 => HCase m1 (matcher_ind' m1) | MSpaceLess m1 => HSpace m1 (matcher_ind' m1) | MPair x y => HPair x y (matcher_ind' x) (matcher_ind' y)
    | MEvery r m1 => HEvery r m1 (matcher_ind' m1) | MHas r m1 => HHas r m1 (matcher_ind' m1) | MListOf r l => HList r l (all l)
    | MCountOf m1 => HCount m1 (matcher_ind' m1) | MMaxMin b r m1 => HMax b r m1 (matcher_ind' m1)
    end.
End ind.

Lemma target_subject : forall v m a, has_target v m a = subject v m a.
Proof. intros [| | | |l] m []; try reflexivity; destruct m as [f [] | | | | | | | | | | | | | | | |]; reflexivity. Qed.
Lemma isnull_eq : forall f, isnull f = true <-> f = Null. Proof. intros []; split; intro; auto; discriminate. Qed.
Lemma sub_null : forall a b, append_subling a b = Null <-> a = Null /\ b = Null.
Proof. intros [|l s c d] b; cbn; [tauto|split; [discriminate|intros [H _]; discriminate]]. Qed.
Lemma seq_null : forall f i, set_seqno f i = Null <-> f = Null. Proof. intros [] i; cbn; split; intro; auto; discriminate. Qed.
Lemma conclude_null : forall c ok f, conclude c ok f = Null <-> fit c ok = true.
Proof. intros c ok f. unfold conclude. destruct (fit c ok); cbn; split; intro; auto; discriminate. Qed.
(** the common conclusion: [ok] decides [P] *)
Lemma fit_iff : forall c ok (P : Prop), (ok = true <-> P) -> (fit c ok = true <-> if c_neg c then ~ P else P).
Proof. intros c ok P H. unfold fit. destruct (c_neg c), ok; cbn; intuition congruence. Qed.
Lemma if_iff : forall (b : bool) (P Q : Prop), (P <-> Q) -> ((if b then ~ P else P) <-> (if b then ~ Q else Q)). Proof. intros [] P Q H; tauto. Qed.

(** context and surroundings agree *)
Definition rel (c : ctx) (e : env) (m : matcher) : Prop :=
  c_ci c = e_ci e /\ c_sq c = e_sq e /\ c_rs c = e_from e /\ c_re c = e_upto e /\ (c_times c = e_times e \/ nohas m = true).
Definition good (m : matcher) : Prop := forall c e v, rel c e m -> typed m v -> times_ok m (c_times c) -> (matches m c v = Null <-> if c_neg c then ~ sem m e v else sem m e v).
Lemma good_pos : forall m c e v, good m -> rel c e m -> typed m v -> times_ok m (c_times c) -> (matches m (upd_neg c false) v = Null <-> sem m e v).
Proof. intros m c e v G R T O. pose proof (G (upd_neg c false) e v) as H. cbn in H. apply H; auto. Qed.
Lemma good_inner : forall m c e v, good m -> rel c e m -> (c_times c = 1 \/ nohas m = true) -> typed m v -> times_ok m (c_times c) -> (matches m (inner c) v = Null <-> sem m (within e) v).
Proof. intros m c e v G (R1 & R2 & _) Ti T O. pose proof (G (inner c) (within e) v) as H. cbn in H. apply H; auto. unfold rel. cbn. tauto. Qed.
Lemma rel_sub : forall c e m m', rel c e m -> (nohas m = true -> nohas m' = true) -> rel c e m'.
Proof. intros c e m m' (A & B & C & D & E) H. unfold rel. intuition. Qed.

(** *** loops *)
Lemma every_null : forall inr ev l i fails, every_loop inr ev i fails l = Null <-> fails = Null /\ forall k a, nth_error l k = Some a -> inr (i + Z.of_nat k) = true -> ev a = Null.
Proof.
  induction l as [|a l IH]; intros i fails; cbn [every_loop].
  - split; [intros ->; split; auto; intros [|k] a; discriminate|tauto].
  - rewrite IH. split.
    + intros [F H]. assert (F' : fails = Null /\ (inr i = true -> ev a = Null)) by (destruct (inr i); [apply sub_null in F; tauto|split; auto; discriminate]). destruct F' as [F1 F2]. split; auto.
      intros [|k] b N I; cbn in N; [inversion N; subst; apply F2; rewrite Z.add_0_r in I; auto|]. apply (H k b N). rewrite <- I. f_equal. lia.
    + intros [-> H]. split.
      * destruct (inr i) eqn:I; auto. apply sub_null. split; auto. apply (H 0%nat a); auto. rewrite Z.add_0_r. auto.
      * intros k b N I. apply (H (S k) b N). rewrite <- I. f_equal. lia.
Qed.
(** positions that count for Has *)
Fixpoint hits (inr : Z -> bool) (ev : val -> fail) (i : nat) (l : list val) : list nat :=
  match l with [] => [] | a :: r => (if inr (Z.of_nat i) && isnull (ev a) then [i] else []) ++ hits inr ev (S i) r end.
Lemma hits_in : forall inr ev l i p, In p (hits inr ev i l) <-> exists k a, p = (i + k)%nat /\ nth_error l k = Some a /\ inr (Z.of_nat p) = true /\ ev a = Null.
Proof.
  induction l as [|a l IH]; intros i p; cbn [hits].
  - split; [intros []|intros (k & b & _ & N & _); destruct k; discriminate].
  - rewrite in_app_iff, IH. split.
    + intros [H|(k & b & E & N & I & V)].
      * destruct (inr (Z.of_nat i) && isnull (ev a)) eqn:B; [|destruct H]. destruct H as [<-|[]]. apply andb_true_iff in B. destruct B as [B1 B2]. exists 0%nat, a. rewrite isnull_eq in B2. split; [lia|auto].
      * exists (S k), b. split; [lia|auto].
    + intros ([|k] & b & E & N & I & V).
      * left. cbn in N. inversion N; subst. replace (i + 0)%nat with i in * by lia. rewrite I, V. cbn. auto.
      * right. exists k, b. split; [lia|auto].
Qed.
Lemma hits_ge : forall inr ev l i p, In p (hits inr ev i l) -> (i <= p)%nat. Proof. intros inr ev l i p H. apply hits_in in H. destruct H as (k & a & -> & _). lia. Qed.
Lemma hits_nodup : forall inr ev l i, NoDup (hits inr ev i l).
Proof.
  induction l as [|a l IH]; intros i; cbn [hits]; [constructor|]. destruct (inr (Z.of_nat i) && isnull (ev a)); cbn; auto. constructor; auto. intro H. apply hits_ge in H. lia.
Qed.
Lemma has_count : forall inr ev times l i found, times <= found \/ found < times -> (times <= has_loop inr ev times (Z.of_nat i) found l <-> times <= found + Z.of_nat (length (hits inr ev i l))).
Proof.
  induction l as [|a l IH]; intros i found H; cbn [has_loop hits]; [cbn; lia|]. replace (Z.of_nat i + 1) with (Z.of_nat (S i)) by lia.
  destruct (inr (Z.of_nat i) && isnull (ev a)); cbn [app length].
  - destruct (Z.leb_spec times (found + 1)); [lia|]. rewrite IH by lia. lia.
  - apply IH. auto.
Qed.
Lemma has_positions : forall inr ev times l, (times <= has_loop inr ev times 0 0 l) <->
  exists ps, NoDup ps /\ times <= Z.of_nat (length ps) /\ forall i, In i ps -> inr (Z.of_nat i) = true /\ exists a, nth_error l i = Some a /\ ev a = Null.
Proof.
  intros inr ev times l. rewrite (has_count inr ev times l 0 0) by lia. cbn [Z.add]. split.
  - intros H. exists (hits inr ev 0 l). split; [apply hits_nodup|]. split; auto. intros i I. apply hits_in in I. destruct I as (k & a & -> & N & R & V). split; eauto.
  - intros (ps & ND & L & H). assert (incl ps (hits inr ev 0 l)). { intros i I. destruct (H i I) as (R & a & N & V). apply hits_in. exists i, a. auto. }
    pose proof (NoDup_incl_length ND H0). lia.
Qed.
(** the best of a sequence of numbers *)
Definition le_of (is_max : bool) (x y : Z) : Prop := if is_max then y <= x else x <= y.
Lemma maxmin_none : forall is_max inr l i, maxmin_loop is_max inr i None l = None <-> forall k a, nth_error l k = Some a -> inr (i + Z.of_nat k) = false.
Proof.
  assert (S : forall is_max inr l i b, maxmin_loop is_max inr i (Some b) l <> None).
  { induction l as [|a l IH]; intros i b; cbn; [discriminate|]. destruct (inr i); [destruct (better is_max a b)|]; apply IH. }
  induction l as [|a l IH]; intros i; cbn [maxmin_loop].
  - split; auto. intros _ [|k] a; discriminate.
  - destruct (inr i) eqn:I.
    + split; [intros H; exfalso; apply (S is_max inr l (i + 1) a H)|]. intros H. specialize (H 0%nat a eq_refl). rewrite Z.add_0_r in H. congruence.
    + rewrite IH. split; intros H.
      * intros [|k] b N; cbn in N; [inversion N; subst; rewrite Z.add_0_r; auto|]. rewrite <- (H k b N). f_equal. lia.
      * intros k b N. rewrite <- (H (Datatypes.S k) b N). f_equal. lia.
Qed.
Lemma maxmin_some : forall is_max inr l i best v, (forall a, In a l -> exists x, a = VNum x) -> maxmin_loop is_max inr i best l = Some v ->
  (forall b, best = Some b -> exists x, b = VNum x) ->
  exists x, v = VNum x /\ (best = Some (VNum x) \/ exists k, nth_error l k = Some (VNum x) /\ inr (i + Z.of_nat k) = true) /\
    (forall b, best = Some (VNum b) -> le_of is_max x b) /\ (forall k y, nth_error l k = Some (VNum y) -> inr (i + Z.of_nat k) = true -> le_of is_max x y).
Proof.
  assert (RF : forall is_max x, le_of is_max x x) by (intros [] x; cbn; lia).
  induction l as [|a l IH]; intros i best v T H B; cbn [maxmin_loop] in H.
  - destruct (B v H) as (x & ->). exists x. split; auto. split; auto. split; [intros b E; rewrite E in H; inversion H; subst; auto|intros [|k] y; discriminate].
  - destruct (T a) as (z & Ez); [left; auto|]. subst a. assert (T' : forall a, In a l -> exists x, a = VNum x) by (intros; apply T; right; auto).
    assert (SH : forall k, i + 1 + Z.of_nat k = i + Z.of_nat (S k)) by lia.
    destruct (inr i) eqn:I.
    + destruct best as [b|].
      * destruct (B b eq_refl) as (w & ->). destruct (better is_max (VNum z) (VNum w)) eqn:Be.
        -- destruct (IH (i + 1) (Some (VNum z)) v T' H) as (x & -> & O & A & C); [intros b E; inversion E; eauto|]. exists x. split; auto. split; [|split].
           ++ destruct O as [O|(k & N & R)]; [inversion O; subst; right; exists 0%nat; rewrite Z.add_0_r; auto|]. right. exists (S k). rewrite <- SH. auto.
           ++ intros b E. inversion E; subst. specialize (A z eq_refl). destruct is_max; cbn in Be, A |- *; apply Z.ltb_lt in Be; lia.
           ++ intros [|k] y N R; cbn in N; [inversion N; subst; apply A; auto|]. rewrite <- SH in R. eapply C; eauto.
        -- destruct (IH (i + 1) (Some (VNum w)) v T' H) as (x & -> & O & A & C); [intros b E; inversion E; eauto|]. exists x. split; auto. split; [|split].
           ++ destruct O as [O|(k & N & R)]; [auto|]. right. exists (S k). rewrite <- SH. auto.
           ++ intros b E. inversion E; subst. auto.
           ++ intros [|k] y N R; cbn in N; [inversion N; subst; specialize (A w eq_refl); destruct is_max; cbn in Be, A |- *; apply Z.ltb_ge in Be; lia|]. rewrite <- SH in R. eapply C; eauto.
      * destruct (IH (i + 1) (Some (VNum z)) v T' H) as (x & -> & O & A & C); [intros b E; inversion E; eauto|]. exists x. split; auto. split; [|split].
        -- destruct O as [O|(k & N & R)]; [inversion O; subst; right; exists 0%nat; rewrite Z.add_0_r; auto|]. right. exists (S k). rewrite <- SH. auto.
        -- discriminate.
        -- intros [|k] y N R; cbn in N; [inversion N; subst; apply A; auto|]. rewrite <- SH in R. eapply C; eauto.
    + destruct (IH (i + 1) best v T' H B) as (x & -> & O & A & C). exists x. split; auto. split; [|split]; auto.
      * destruct O as [O|(k & N & R)]; [auto|]. right. exists (S k). rewrite <- SH. auto.
      * intros [|k] y N R; cbn in N; [rewrite Z.add_0_r in R; congruence|]. rewrite <- SH in R. eapply C; eauto.
Qed.
Lemma range_sel : forall c e m r i, rel c e m -> (range_in c r (Z.of_nat i) = true <-> selected e r i).
Proof. intros c e m r i (_ & _ & A & B & _). unfold range_in, c_in, r_in, selected. rewrite A, B, !andb_true_iff, !Z.leb_le, !Z.ltb_lt. tauto. Qed.

(** *** the main lemma *)
Lemma all_good : forall m, good m.
Proof.
  apply matcher_ind'.
  - (* poly *) intros f m G c e v R T O. cbn [matches sem]. assert (X : rel (configure f c) (scope f e) m).
    { destruct R as (A & B & C & D & E). unfold rel, configure, scope. cbn [c_ci c_sq c_rs c_re c_times e_ci e_sq e_from e_upto e_times]. rewrite A, B, C, D.
      destruct (f_rs f =? -1), (f_re f =? -1); cbn; repeat split; auto; destruct E as [->|E]; auto. }
    rewrite (G (configure f c) (scope f e) v X T O). cbn [configure c_neg].
    assert (D : sem m (scope f e) v \/ ~ sem m (scope f e) v).
    { pose proof (good_pos m (configure f c) (scope f e) v G X T O) as H. destruct (matches m (upd_neg (configure f c) false) v) eqn:E; [left; apply H; auto|right; intro S; apply H in S; discriminate]. }
    destruct (f_neg f), (c_neg c); cbn [xorb]; tauto.
  - (* base *) intros p c e v R T O. cbn [matches sem]. destruct R as (A & B & _). rewrite <- A, <- B. set (b := p (c_ci c) (c_sq c) v).
    transitivity (fit c b = true); [destruct (fit c b); cbn; split; intro; auto; discriminate|]. apply fit_iff. tauto.
  - (* not *) intros m G c e v R T O. cbn [matches sem]. rewrite (G (upd_neg c (negb (c_neg c))) e v) by auto. cbn [upd_neg c_neg].
    assert (D : sem m e v \/ ~ sem m e v).
    { pose proof (good_pos m c e v G R T O) as H. destruct (matches m (upd_neg c false) v) eqn:E; [left; apply H; auto|right; intro S; apply H in S; discriminate]. }
    destruct (c_neg c); cbn [negb]; tauto.
  - (* cond *) intros b x y Gx Gy c e v R T O. cbn [matches sem]. destruct T as [T1 T2], O as [O1 O2].
    assert (Rx : rel c e x) by (eapply rel_sub; [exact R|]; cbn; intros N; apply andb_true_iff in N; tauto). assert (Ry : rel c e y) by (eapply rel_sub; [exact R|]; cbn; intros N; apply andb_true_iff in N; tauto).
    destruct b; [apply Gx|apply Gy]; auto.
  - (* and *) intros x y Gx Gy c e v R T O. cbn [matches sem]. destruct T as [T1 T2], O as [O1 O2]. rewrite conclude_null. apply fit_iff. rewrite isnull_eq. cbn [append_subling]. rewrite sub_null.
    assert (Rx : rel c e x) by (eapply rel_sub; [exact R|]; cbn; intros N; apply andb_true_iff in N; tauto). assert (Ry : rel c e y) by (eapply rel_sub; [exact R|]; cbn; intros N; apply andb_true_iff in N; tauto).
    rewrite (good_pos x c e v), (good_pos y c e v); auto. tauto.
  - (* or *) intros x y Gx Gy c e v R T O. cbn [matches sem]. destruct T as [T1 T2], O as [O1 O2]. rewrite conclude_null. apply fit_iff. rewrite orb_true_iff, !isnull_eq.
    assert (Rx : rel c e x) by (eapply rel_sub; [exact R|]; cbn; intros N; apply andb_true_iff in N; tauto). assert (Ry : rel c e y) by (eapply rel_sub; [exact R|]; cbn; intros N; apply andb_true_iff in N; tauto).
    rewrite (good_pos x c e v), (good_pos y c e v); auto. tauto.
  - (* allof *) intros l GL c e v R T O. cbn [matches sem typed times_ok] in *. rewrite conclude_null. apply fit_iff. rewrite isnull_eq.
    assert (RR : forall m, In m l -> rel c e m). { clear - R. intros m I. eapply rel_sub; [exact R|]. cbn. induction l as [|a l IH]; [destruct I|]. intros N. apply andb_true_iff in N. destruct I as [<-|I]; [tauto|]. apply IH; try tauto. eapply rel_sub; [exact R|]. cbn. intros K. apply andb_true_iff in K. tauto. }
    clear R. assert (K : forall i fails, (fix go (i : Z) (fails : fail) (l : list matcher) : fail := match l with [] => fails | m1 :: r => go (i + 1) (append_subling fails (set_seqno (matches m1 (upd_neg c false) v) i)) r end) i fails l = Null
      <-> fails = Null /\ (fix all l := match l with [] => True | m1 :: r => sem m1 e v /\ all r end) l).
    { induction GL as [|a l Ga GL IH]; intros i fails; [tauto|]. destruct T as [T1 T2], O as [O1 O2]. rewrite IH; auto; [|intros; apply RR; right; auto].
      rewrite sub_null, seq_null, (good_pos a c e v); auto; [tauto|apply RR; left; auto]. }
    rewrite K. tauto.
  - (* anyof *) intros l GL c e v R T O. cbn [matches sem typed times_ok] in *.
    assert (RR : forall m, In m l -> rel c e m). { clear - R. intros m I. eapply rel_sub; [exact R|]. cbn. induction l as [|a l IH]; [destruct I|]. intros N. apply andb_true_iff in N. destruct I as [<-|I]; [tauto|]. apply IH; try tauto. eapply rel_sub; [exact R|]. cbn. intros K. apply andb_true_iff in K. tauto. }
    clear R. assert (K : forall i fails, fst ((fix go (i : Z) (fails : fail) (l : list matcher) : bool * fail := match l with [] => (false, fails) | m1 :: r => let f := matches m1 (upd_neg c false) v in if isnull f then (true, fails) else go (i + 1) (append_subling fails (set_seqno f i)) r end) i fails l) = true
      <-> (fix any l := match l with [] => False | m1 :: r => sem m1 e v \/ any r end) l).
    { induction GL as [|a l Ga GL IH]; intros i fails; [cbn; intuition discriminate|]. destruct T as [T1 T2], O as [O1 O2].
      pose proof (good_pos a c e v Ga (RR a (or_introl eq_refl)) T1 O1) as H. cbv zeta. destruct (isnull (matches a (upd_neg c false) v)) eqn:E.
      - apply isnull_eq in E. cbn. tauto.
      - rewrite IH; auto; [|intros; apply RR; right; auto]. assert (~ sem a e v) by (intro S; apply H in S; rewrite S in E; discriminate). tauto. }
    specialize (K 0 Null). match type of K with fst ?X = _ <-> _ => destruct X as [found fails] end. cbn [fst] in K. rewrite conclude_null. apply fit_iff. auto.
  - (* noneof *) intros l GL c e v R T O. cbn [matches sem typed times_ok] in *. rewrite conclude_null. apply fit_iff. rewrite isnull_eq.
    assert (RR : forall m, In m l -> rel c e m). { clear - R. intros m I. eapply rel_sub; [exact R|]. cbn. induction l as [|a l IH]; [destruct I|]. intros N. apply andb_true_iff in N. destruct I as [<-|I]; [tauto|]. apply IH; try tauto. eapply rel_sub; [exact R|]. cbn. intros K. apply andb_true_iff in K. tauto. }
    clear R. assert (K : forall i fails, (fix go (i : Z) (fails : fail) (l : list matcher) : fail := match l with [] => fails | m1 :: r => let f := matches m1 (upd_neg c false) v in go (i + 1) (if isnull f then append_subling fails (set_seqno (new_fail 4) i) else fails) r end) i fails l = Null
      <-> fails = Null /\ (fix none l := match l with [] => True | m1 :: r => ~ sem m1 e v /\ none r end) l).
    { induction GL as [|a l Ga GL IH]; intros i fails; [tauto|]. destruct T as [T1 T2], O as [O1 O2]. cbv zeta. rewrite IH; auto; [|intros; apply RR; right; auto].
      pose proof (good_pos a c e v Ga (RR a (or_introl eq_refl)) T1 O1) as H. destruct (isnull (matches a (upd_neg c false) v)) eqn:E.
      - apply isnull_eq in E. rewrite sub_null, seq_null. unfold new_fail. apply H in E. split; [intros ((_ & X) & _); discriminate|tauto].
      - assert (~ sem a e v) by (intro S; apply H in S; rewrite S in E; discriminate). tauto. }
    rewrite K. tauto.
  - (* caseless *) intros m G c e v R T O. cbn [matches sem]. apply (G (upd_ci c true) _ v); auto. destruct R as (A & B & C & D & E). unfold rel. cbn. auto.
  - (* spaceless *) intros m G c e v R T O. cbn [matches sem]. apply (G (upd_sq c true) _ v); auto. destruct R as (A & B & C & D & E). unfold rel. cbn. auto.
  - (* pair *) intros x y Gx Gy c e v R (a & b & -> & T1 & T2) (Ti & O1 & O2). cbn [matches sem]. rewrite conclude_null. apply fit_iff. rewrite isnull_eq. cbn [append_subling]. rewrite sub_null.
    assert (Rx : rel c e x) by (eapply rel_sub; [exact R|]; cbn; intros N; apply andb_true_iff in N; tauto). assert (Ry : rel c e y) by (eapply rel_sub; [exact R|]; cbn; intros N; apply andb_true_iff in N; tauto).
    rewrite (good_inner x c e a), (good_inner y c e b); auto; try tauto. split; [intros [H1 H2]; eauto|]. intros (a' & b' & E & H1 & H2). inversion E; subst. auto.
  - (* every *) intros r m G c e v R T (Ti & O). cbn [matches sem typed] in *. rewrite conclude_null. apply fit_iff. rewrite isnull_eq, every_null. cbn [Z.add]. split.
    + intros [_ H] i a N S. assert (I : In a (members v)) by (eapply nth_error_In; eauto). rewrite <- (good_inner m c e a); auto; try tauto. apply (H i a N). eapply range_sel; eauto.
    + intros H. split; auto. intros k a N S. assert (I : In a (members v)) by (eapply nth_error_In; eauto). rewrite (good_inner m c e a); auto; try tauto. apply (H k a N). eapply range_sel; eauto.
  - (* has *) intros r m G c e v R T (Ti & O). cbn [matches sem typed] in *.
    assert (R' : rel c e m) by (destruct R as (A & B & C & D & E); unfold rel; cbn in E; intuition discriminate).
    assert (ET : e_times e = c_times c) by (destruct R as (_ & _ & _ & _ & E); cbn in E; intuition congruence).
    match goal with |- (if fit c ?b then _ else _) = _ <-> _ => transitivity (fit c b = true); [destruct (fit c b); cbn; split; intro; auto; discriminate|] end. apply fit_iff. rewrite Z.leb_le, has_positions, ET.
    split; intros (ps & ND & L & H); exists ps; split; auto; split; auto; intros i I; destruct (H i I) as (S & a & N & V); (split; [eapply range_sel; eauto|]); exists a; split; auto; assert (J : In a (elems v)) by (eapply nth_error_In; eauto); pose proof (T a J) as TJ; rewrite <- ?target_subject in *; apply (good_inner m c e (has_target v m a)); auto; tauto.
  - (* listof *) intros r l GL c e v R T O. cbn [matches sem typed times_ok] in *. rewrite conclude_null. apply fit_iff. rewrite isnull_eq.
    assert (RR : forall m, In m l -> rel c e m). { clear - R. intros m I. eapply rel_sub; [exact R|]. cbn. induction l as [|a l IH]; [destruct I|]. intros N. apply andb_true_iff in N. destruct I as [<-|I]; [tauto|]. apply IH; try tauto. eapply rel_sub; [exact R|]. cbn. intros K. apply andb_true_iff in K. tauto. }
    assert (ST : (if r_start r <? c_rs c then c_rs c else r_start r) = Z.max (e_from e) (r_start r)). { destruct R as (_ & _ & A & _). rewrite A. destruct (Z.ltb_spec (r_start r) (e_from e)); lia. }
    rewrite ST. set (start := Z.max (e_from e) (r_start r)). clear R ST.
    match goal with |- ?go 0 Null l = Null <-> _ => assert (K : forall i fails, go i fails l = Null <-> fails = Null /\ (fix items k l := match l with [] => True | m1 :: l1 => (exists i a, Z.of_nat i = k + start /\ nth_error (elems v) i = Some a /\ sem m1 (within e) a) /\ items (k + 1) l1 end) i l) end.
    { induction GL as [|m l Gm GL IH]; intros i fails; [tauto|]. destruct T as [T1 T2], O as [[O1 O1'] O2]. rewrite IH; auto; [|intros; apply RR; right; auto]. clear IH. rewrite sub_null, seq_null.
      match goal with |- ((_ /\ ?X = Null) /\ _) <-> (_ /\ ?Y /\ _) => assert (XY : X = Null <-> Y); [|tauto] end.
      destruct (Z.leb_spec 0 (i + start)) as [P|P].
      - destruct (nth_error (elems v) (Z.to_nat (i + start))) as [a|] eqn:N.
        + rewrite (good_inner m c e a); auto; [|apply RR; left; auto|apply T1; eapply nth_error_In; eauto]. split; [intros S; exists (Z.to_nat (i + start)), a; split; [lia|auto]|].
          intros (k & b & Ek & Nk & S). replace k with (Z.to_nat (i + start)) in Nk by lia. rewrite N in Nk. inversion Nk; subst. auto.
        + split; [discriminate|]. intros (k & b & Ek & Nk & S). replace k with (Z.to_nat (i + start)) in Nk by lia. congruence.
      - split; [discriminate|]. intros (k & b & Ek & _). lia. }
    rewrite K. tauto.
  - (* countof *) intros m G c e v R T (Ti & O). cbn [matches sem typed] in *. unfold stats.
    match goal with |- (if fit c ?b then _ else _) = _ <-> _ => transitivity (fit c b = true); [destruct (fit c b); cbn; split; intro; auto; discriminate|] end. apply fit_iff. rewrite isnull_eq.
    apply (good_inner m c e); auto.
  - (* maxmin *) intros b r m G c e v R T (Ti & O). cbn [matches sem typed] in *. unfold stats.
    match goal with |- (if fit c ?b then _ else _) = _ <-> _ => transitivity (fit c b = true); [destruct (fit c b); cbn; split; intro; auto; discriminate|] end. apply fit_iff.
    assert (TN : forall a, In a (elems v) -> exists x, a = VNum x) by (intros a I; apply T; auto).
    destruct (maxmin_loop b (range_in c r) 0 None (elems v)) as [w|] eqn:E.
    + destruct (maxmin_some b (range_in c r) (elems v) 0 None w TN E) as (x & -> & [X|(k & N & S)] & _ & C); [discriminate|discriminate|]. cbn [Z.add] in *. rewrite isnull_eq.
      assert (I : In (VNum x) (elems v)) by (eapply nth_error_In; eauto). destruct (T _ I) as [_ Tx]. rewrite (good_inner m c e (VNum x)); auto. split.
      * intros H. exists x. split; auto. split; [exists k; split; auto; eapply range_sel; eauto|]. intros i y Ni Si. apply (C i y Ni). eapply range_sel; eauto.
      * intros (y & H & (i & Ni & Si) & B). assert (Y : le_of b x y) by (apply (C i y Ni); eapply range_sel; eauto). assert (Z : if b then x <= y else y <= x) by (apply (B k x N); eapply range_sel; eauto).
        replace x with y; auto. destruct b; cbn in Y; lia.
    + split; [discriminate|]. intros (x & _ & (i & N & S) & _). rewrite maxmin_none in E. specialize (E i (VNum x) N). cbn [Z.add] in E. apply (range_sel c e _ r i R) in S. congruence.
Qed.

Lemma verdict : forall m c v, typed m v -> times_ok m (c_times c) ->
  (matches m c v = Null <-> (if c_neg c then ~ sem m (mkenv (c_ci c) (c_sq c) (c_rs c) (c_re c) (c_times c)) v else sem m (mkenv (c_ci c) (c_sq c) (c_rs c) (c_re c) (c_times c)) v)).
Proof. intros m c v T O. apply all_good; auto. unfold rel. cbn. tauto. Qed.
Lemma verdict0 : forall m v, typed m v -> times_ok m 1 -> (matches m ctx0 v = Null <-> sem m env0 v).
Proof. intros m v T O. apply (verdict m ctx0 v T O). Qed.
