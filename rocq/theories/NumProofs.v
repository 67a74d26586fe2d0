(** Proofs about assertions on numbers. *)
From Coq Require Import List ZArith QArith Qabs Qround Bool Lia Lqa.
From Verif Require Import NumModel NumSpec.
Import ListNotations.
Local Open Scope Z_scope.

(** ** integers *)
Lemma valid_cases : forall t, valid t = true -> t = Boolean \/ t = Signed 8 \/ t = Signed 16 \/ t = Signed 32 \/ t = Signed 64 \/ t = Unsigned 8 \/ t = Unsigned 16 \/ t = Unsigned 32 \/ t = Unsigned 64.
Proof.
  intros [|b|b] H; auto; cbn in H; rewrite !orb_true_iff, !Z.eqb_eq in H; destruct H as [[[->| ->]| ->]| ->]; auto 12.
Qed.
Lemma conv_id : forall t v, valid t = true -> in_type t v = true -> conv t v = v.
Proof.
  intros t v Ht H. destruct t as [|b|b]; cbn [in_type conv] in *.
  - apply orb_true_iff in H. rewrite !Z.eqb_eq in H. destruct H as [->| ->]; reflexivity.
  - apply andb_true_iff in H. destruct H as [A B]. apply Z.leb_le in A. apply Z.ltb_lt in B.
    assert (E : 2 ^ b = 2 * 2 ^ (b - 1)). { cbn in Ht. rewrite !orb_true_iff, !Z.eqb_eq in Ht. destruct Ht as [[[->| ->]| ->]| ->]; reflexivity. }
    rewrite Z.mod_small; lia.
  - apply andb_true_iff in H. destruct H as [A B]. apply Z.leb_le in A. apply Z.ltb_lt in B. apply Z.mod_small. lia.
Qed.
Lemma range_of : forall t v, value t v -> - 2 ^ 63 <= v < 2 ^ 64 /\ (signed t = true -> v < 2 ^ 63) /\ (signed t = false -> 0 <= v).
Proof.
  intros t v [Ht H]. destruct (valid_cases t Ht) as [->|[->|[->|[->|[->|[->|[->|[->| ->]]]]]]]]; cbn in H |- *; rewrite ?andb_true_iff, ?orb_true_iff, ?Z.leb_le, ?Z.ltb_lt, ?Z.eqb_eq in H; (split; [lia|split; intros; try discriminate; lia]).
Qed.
Lemma common_ok : forall ta te a e, value ta a -> value te e -> signed ta = signed te \/ (0 <= a /\ 0 <= e) ->
  valid (common ta te) = true /\ in_type (common ta te) a = true /\ in_type (common ta te) e = true.
Proof.
  intros ta te a e [Va Ha] [Ve He] S.
  destruct (valid_cases ta Va) as [->|[->|[->|[->|[->|[->|[->|[->| ->]]]]]]]]; destruct (valid_cases te Ve) as [->|[->|[->|[->|[->|[->|[->|[->| ->]]]]]]]];
    cbn in Ha, He, S |- *; rewrite ?andb_true_iff, ?orb_true_iff, ?Z.leb_le, ?Z.ltb_lt, ?Z.eqb_eq in *; (split; [reflexivity|]); try (destruct S as [S|S]; [discriminate S|]); lia.
Qed.
Lemma ord_ok : forall op ta te a e, value ta a -> value te e -> signed ta = signed te \/ (0 <= a /\ 0 <= e) -> ord_match op te e ta a = compare op a e.
Proof.
  intros op ta te a e Va Ve H. destruct (common_ok ta te a e Va Ve H) as (V & A & E). unfold ord_match. rewrite !conv_id; auto.
Qed.
Lemma common_mixed : forall ta te a e, value ta a -> value te e -> holdable ta te -> holdable te ta ->
  valid (common ta te) = true /\ in_type (common ta te) a = true /\ in_type (common ta te) e = true.
Proof.
  unfold holdable. intros ta te a e [Va Ha] [Ve He] S S'.
  destruct (valid_cases ta Va) as [->|[->|[->|[->|[->|[->|[->|[->| ->]]]]]]]]; destruct (valid_cases te Ve) as [->|[->|[->|[->|[->|[->|[->|[->| ->]]]]]]]];
    cbn in Ha, He, S, S' |- *; try (specialize (S eq_refl eq_refl); discriminate S); try (specialize (S' eq_refl eq_refl); discriminate S');
    rewrite ?andb_true_iff, ?orb_true_iff, ?Z.leb_le, ?Z.ltb_lt, ?Z.eqb_eq in *; (split; [reflexivity|]); lia.
Qed.
Lemma mixed_ok : forall op tl l tr r, value tl l -> value tr r -> holdable tl tr -> holdable tr tl -> op <> OEq -> op <> ONe -> (ok1 op tl l tr r = true <-> holds op l r).
Proof.
  intros op tl l tr r Vl Vr H1 H2 N1 N2. destruct (common_mixed tr tl r l Vr Vl H2 H1) as (V & A & B).
  destruct op; cbn [ok1 holds]; try congruence; unfold ord_match; rewrite !conv_id by auto; cbn [compare]; rewrite ?Z.leb_le, ?Z.ltb_lt; lia.
Qed.
Lemma numberfy_eq : forall x y, - 2 ^ 63 <= x < 2 ^ 64 -> - 2 ^ 63 <= y < 2 ^ 64 -> (numberfy x =? numberfy y) = true <-> x = y \/ x = y + 2 ^ 64 \/ y = x + 2 ^ 64.
Proof.
  intros x y X Y. rewrite Z.eqb_eq. unfold numberfy. split.
  - intro H. pose proof (Z.div_mod x (2 ^ 64) ltac:(lia)) as A. pose proof (Z.div_mod y (2 ^ 64) ltac:(lia)) as B.
    assert (-1 <= x / 2 ^ 64 <= 0) by (split; [apply Z.div_le_lower_bound; lia|apply Z.lt_succ_r; apply Z.div_lt_upper_bound; lia]).
    assert (-1 <= y / 2 ^ 64 <= 0) by (split; [apply Z.div_le_lower_bound; lia|apply Z.lt_succ_r; apply Z.div_lt_upper_bound; lia]). lia.
  - intros [->|[->| ->]]; auto.
    + replace (y + 2 ^ 64) with (y + 1 * 2 ^ 64) by lia. apply Z.mod_add. lia.
    + symmetry. replace (x + 2 ^ 64) with (x + 1 * 2 ^ 64) by lia. apply Z.mod_add. lia.
Qed.
Lemma eq_exact : forall te e ta a, te <> Boolean -> value te e -> value ta a -> eq_match te e ta a = true <-> e = a \/ e = a + 2 ^ 64 \/ a = e + 2 ^ 64.
Proof.
  intros te e ta a N Ve Va. assert (Q : eq_match te e ta a = (numberfy e =? numberfy a)) by (destruct te; [congruence|reflexivity|reflexivity]). rewrite Q. apply numberfy_eq; [apply (range_of te); auto|apply (range_of ta); auto].
Qed.
Lemma eq_match_sane : forall te e ta a, value te e -> value ta a -> (te = Boolean -> in_type Boolean a = true) -> signed ta = signed te \/ (0 <= a /\ 0 <= e) ->
  eq_match te e ta a = true <-> e = a.
Proof.
  intros te e ta a Ve Va Bo S. destruct (range_of te e Ve) as (R1 & R2 & R3). destruct (range_of ta a Va) as (R4 & R5 & R6).
  assert (D : te = Boolean \/ te <> Boolean) by (destruct te; [left; auto|right; discriminate|right; discriminate]). destruct D as [->|D].
  - specialize (Bo eq_refl). destruct Ve as [_ Ve]. cbn in Bo, Ve |- *. rewrite orb_true_iff, !Z.eqb_eq in Bo, Ve. destruct Ve as [->| ->]; destruct Bo as [->| ->]; cbn; split; congruence.
  - rewrite eq_exact; auto. split; [|auto]. intros [E|[E|E]]; auto; exfalso; destruct S as [S|S]; try lia; destruct (signed te) eqn:B; rewrite S in *; specialize (R2 eq_refl) || specialize (R3 eq_refl); specialize (R5 eq_refl) || specialize (R6 eq_refl); lia.
Qed.
Lemma cast_fits : forall te e ta a, value te e -> value ta a -> (te = Boolean -> in_type Boolean a = true) -> in_type ta e = true -> cast_match te e ta a = true <-> e = a.
Proof.
  intros te e ta a Ve Va Bo F. assert (D : te = Boolean \/ te <> Boolean) by (destruct te; [left; auto|right; discriminate|right; discriminate]). destruct D as [->|D].
  - cbn [cast_match]. apply eq_match_sane; auto. right. specialize (Bo eq_refl). destruct Ve as [_ Ve]. cbn in Bo, Ve. rewrite orb_true_iff, !Z.eqb_eq in Bo, Ve. lia.
  - assert (Q : cast_match te e ta a = eq_match ta (conv ta e) ta a) by (destruct te; [congruence|reflexivity|reflexivity]). rewrite Q, conv_id; [|apply Va|auto].
    apply eq_match_sane; auto; [split; [apply Va|auto]|]. intros ->. apply Va.
Qed.
Lemma operators : forall op tl l tr r, value tl l -> value tr r -> signed tl = signed tr \/ (0 <= l /\ 0 <= r) ->
  (op = OEq \/ op = ONe -> tl = Boolean -> in_type Boolean r = true) -> (op = ONe -> in_type tr l = true) -> (ok1 op tl l tr r = true <-> holds op l r).
Proof.
  intros op tl l tr r Vl Vr S B F. assert (S' : signed tr = signed tl \/ (0 <= r /\ 0 <= l)) by (destruct S as [S|[X Y]]; auto).
  destruct op; cbn [ok1 holds].
  - apply eq_match_sane; auto.
  - rewrite negb_true_iff. pose proof (cast_fits tl l tr r Vl Vr ltac:(auto) (F eq_refl)) as K. destruct (cast_match tl l tr r); split; intro H; try discriminate; auto.
    + exfalso. apply H. apply K. auto.
    + intro E. apply K in E. discriminate.
  - rewrite ord_ok; auto. cbn. rewrite Z.ltb_lt. lia.
  - rewrite ord_ok; auto. cbn. rewrite Z.ltb_lt. lia.
  - rewrite ord_ok; auto. cbn. rewrite Z.leb_le. lia.
  - rewrite ord_ok; auto. cbn. rewrite Z.leb_le. lia.
Qed.
(** OK(e, a): the expected value in the type of the actual one *)
Lemma conv_cong : forall t v, valid t = true -> t <> Boolean -> exists k, conv t v = v + k * 2 ^ bits t.
Proof.
  intros t v V N. destruct t as [|b|b]; [congruence| |]; cbn [conv bits] in *.
  - assert (P : 0 < 2 ^ b) by (cbn in V; rewrite !orb_true_iff, !Z.eqb_eq in V; destruct V as [[[->| ->]| ->]| ->]; reflexivity).
    exists (- ((v + 2 ^ (b - 1)) / 2 ^ b)). rewrite Z.mod_eq by lia. lia.
  - assert (P : 0 < 2 ^ b) by (cbn in V; rewrite !orb_true_iff, !Z.eqb_eq in V; destruct V as [[[->| ->]| ->]| ->]; reflexivity).
    exists (- (v / 2 ^ b)). rewrite Z.mod_eq by lia. lia.
Qed.
Lemma conv_in : forall t v, valid t = true -> in_type t (conv t v) = true.
Proof.
  intros t v V. destruct t as [|b|b]; cbn [conv in_type].
  - destruct (v =? 0); reflexivity.
  - assert (P : 0 < 2 ^ b /\ 2 ^ b = 2 * 2 ^ (b - 1)) by (cbn in V; rewrite !orb_true_iff, !Z.eqb_eq in V; destruct V as [[[->| ->]| ->]| ->]; split; reflexivity).
    destruct P as [P E]. pose proof (Z.mod_pos_bound (v + 2 ^ (b - 1)) (2 ^ b) P). apply andb_true_iff. rewrite Z.leb_le, Z.ltb_lt. lia.
  - assert (P : 0 < 2 ^ b) by (cbn in V; rewrite !orb_true_iff, !Z.eqb_eq in V; destruct V as [[[->| ->]| ->]| ->]; reflexivity).
    pose proof (Z.mod_pos_bound v (2 ^ b) P). apply andb_true_iff. rewrite Z.leb_le, Z.ltb_lt. lia.
Qed.
Lemma width_unique : forall t x y k, valid t = true -> t <> Boolean -> in_type t x = true -> in_type t y = true -> x = y + k * 2 ^ bits t -> x = y.
Proof.
  intros t x y k V N X Y E. destruct (valid_cases t V) as [->|[->|[->|[->|[->|[->|[->|[->| ->]]]]]]]]; try congruence; cbn in X, Y, E; rewrite ?andb_true_iff, ?Z.leb_le, ?Z.ltb_lt in *; assert (k = 0) by nia; lia.
Qed.
Lemma ok2_meaning : forall te e ta a, te <> Boolean -> value te e -> value ta a ->
  ok2 te e ta a = true <-> (if match ta with Boolean => true | _ => false end then (a = 1 <-> e <> 0) else exists k, a = e + k * 2 ^ bits ta).
Proof.
  intros te e ta a N Ve Va. assert (Q : ok2 te e ta a = eq_match ta (conv ta e) ta a) by (unfold ok2; destruct te; [congruence|reflexivity|reflexivity]).
  assert (C : value ta (conv ta e)) by (split; [apply Va|apply conv_in; apply Va]).
  rewrite Q, (eq_match_sane ta (conv ta e) ta a C Va); [|intros ->; apply Va|left; reflexivity].
  destruct ta as [|b|b].
  - destruct Va as [_ Va]. cbn in Va |- *. rewrite orb_true_iff, !Z.eqb_eq in Va. destruct (Z.eqb_spec e 0) as [->|E]; split; intro H; try lia.
  - split.
    + intros <-. destruct (conv_cong (Signed b) e) as [k K]; [apply Va|discriminate|]. exists k. auto.
    + intros [k K]. destruct (conv_cong (Signed b) e) as [j J]; [apply Va|discriminate|]. apply (width_unique (Signed b) _ _ (j - k)); [apply Va|discriminate|apply C|apply Va|]. lia.
  - split.
    + intros <-. destruct (conv_cong (Unsigned b) e) as [k K]; [apply Va|discriminate|]. exists k. auto.
    + intros [k K]. destruct (conv_cong (Unsigned b) e) as [j J]; [apply Va|discriminate|]. apply (width_unique (Unsigned b) _ _ (j - k)); [apply Va|discriminate|apply C|apply Va|]. lia.
Qed.
Lemma ok2_fits : forall te e ta a, value te e -> value ta a -> (te = Boolean -> in_type Boolean a = true) -> in_type ta e = true -> (ok2 te e ta a = true <-> e = a).
Proof. exact cast_fits. Qed.
Lemma ok2_bool : forall e ta a, value Boolean e -> (ok2 Boolean e ta a = true <-> (e = 1 <-> a <> 0)) /\ (ok1 OEq Boolean e ta a = true <-> (e = 1 <-> a <> 0)).
Proof.
  intros e ta a [_ V]. cbn in V |- *. rewrite orb_true_iff, !Z.eqb_eq in V. destruct V as [->| ->]; cbn; destruct (Z.eqb_spec a 0) as [->|E]; cbn; split; split; intro H; try discriminate; try reflexivity; try lia.
Qed.

(** ** tolerance *)
Lemma Qle_iff : forall x y, Qle_bool x y = true <-> (x <= y)%Q.
Proof. exact Qle_bool_iff. Qed.
Lemma default_tol : forall e a, eq_float e Default a = Some true <-> (dist a e <= 1 # 100000)%Q.
Proof.
  intros e a. unfold eq_float, approx, dist. cbn [is_scale Z.eqb negb andb]. replace (Qabs (absolute_margin 0)) with (1 # 100000)%Q by reflexivity.
  rewrite <- Qle_iff. split; intro H; [congruence|f_equal; exact H].
Qed.
Lemma scaled_spec : forall t n, scaled t = Some n -> 0 <= n < 2 ^ 64 /\ (inject_Z n <= Qabs t * inject_Z apx_A)%Q /\ (Qabs t * inject_Z apx_A < inject_Z (n + 1))%Q.
Proof.
  intros t n H. unfold scaled in H. destruct (Z.ltb_spec (Qfloor (Qabs t * inject_Z apx_A)) (2 ^ 64)) as [L|L]; [|discriminate]. assert (E : n = Qfloor (Qabs t * inject_Z apx_A)) by congruence. clear H. subst n.
  split; [|split; [apply Qfloor_le|apply Qlt_floor]]. split; auto.
  assert (P : (0 <= Qabs t * inject_Z apx_A)%Q) by (apply Qmult_le_0_compat; [apply Qabs_nonneg|discriminate]).
  change 0 with (Qfloor (inject_Z 0)). apply Qfloor_resp_le. exact P.
Qed.
Lemma scaled_total : forall t, (Qabs t < 184467 # 1)%Q -> exists n, scaled t = Some n.
Proof.
  intros t H. unfold scaled. destruct (Z.ltb_spec (Qfloor (Qabs t * inject_Z apx_A)) (2 ^ 64)) as [L|L]; [eexists; reflexivity|]. exfalso.
  pose proof (Qfloor_le (Qabs t * inject_Z apx_A)) as F. assert (G : (inject_Z (2 ^ 64) <= inject_Z (Qfloor (Qabs t * inject_Z apx_A)))%Q) by (rewrite <- Zle_Qle; auto).
  assert (K : (Qabs t * inject_Z apx_A <= (184467 # 1) * inject_Z apx_A)%Q) by (apply Qmult_le_compat_r; [apply Qlt_le_weak; auto|discriminate]).
  assert (X : (inject_Z (2 ^ 64) <= (184467 # 1) * inject_Z apx_A)%Q) by (eapply Qle_trans; [exact G|]; eapply Qle_trans; eauto).
  revert X. vm_compute. auto.
Qed.
Lemma div_mult : forall x y, (inject_Z x / inject_Z apx_A <= y)%Q <-> (inject_Z x <= y * inject_Z apx_A)%Q.
Proof.
  intros x y. split; intro H.
  - apply Qmult_le_compat_r with (z := inject_Z apx_A) in H; [|discriminate]. eapply Qle_trans; [|exact H]. apply Qle_lteq. right. field. discriminate.
  - apply Qmult_lt_0_le_reg_r with (z := inject_Z apx_A); [reflexivity|]. eapply Qle_trans; [|exact H]. apply Qle_lteq. right. field. discriminate.
Qed.
(** the tolerance really used: |t| cut to fourteen decimals *)
Definition cut (n : Z) : Q := (inject_Z n / inject_Z apx_A)%Q.
Lemma cut_nonneg : forall n, 0 <= n -> (0 <= cut n)%Q.
Proof. intros n H. unfold cut. apply Qle_shift_div_l; [reflexivity|]. rewrite Qmult_0_l. change 0%Q with (inject_Z 0). rewrite <- Zle_Qle. auto. Qed.
Lemma cut_bounds : forall t n, scaled t = Some n -> (cut n <= Qabs t)%Q /\ (Qabs t < cut n + (1 # 100000000000000))%Q.
Proof.
  intros t n H. destruct (scaled_spec t n H) as (_ & A & B). split; [apply div_mult; auto|].
  assert (E : (cut n + (1 # 100000000000000) == inject_Z (n + 1) / inject_Z apx_A)%Q) by (unfold cut; rewrite inject_Z_plus; unfold apx_A; field; discriminate).
  rewrite E. apply Qlt_shift_div_l; [reflexivity|auto].
Qed.
Lemma absolute_code : forall n e a, 0 <= n -> n + apx_B < 2 ^ 64 -> approx e (eps_code false n) a = true <-> (dist a e <= cut n)%Q.
Proof.
  intros n e a N L. unfold approx, eps_code. rewrite Z.mod_small by (unfold apx_B in *; lia).
  assert (S : is_scale (n + apx_B) = false). { unfold is_scale. destruct (Z.ltb_spec (n + apx_B) apx_B); [unfold apx_B in *; lia|]. apply andb_false_r. }
  rewrite S, Qle_iff. unfold absolute_margin. destruct (Z.eqb_spec (n + apx_B) 0) as [X|_]; [unfold apx_B in *; lia|]. replace (n + apx_B - apx_B) with n by lia. fold (cut n).
  rewrite (Qabs_pos (cut n)); [reflexivity|apply cut_nonneg; auto].
Qed.
Lemma percent_code : forall n e a, 0 < n < apx_B -> approx e (eps_code true n) a = true <-> (dist a e <= Qabs e * (cut n / 100))%Q.
Proof.
  intros n e a N. unfold approx, eps_code. rewrite Z.mod_small by lia. assert (S : is_scale n = true). { unfold is_scale. destruct (Z.eqb_spec n 0); [lia|]. destruct (Z.ltb_spec n apx_B); [auto|lia]. }
  rewrite S, Qle_iff. unfold percentage_scale. fold (cut n). rewrite Qabs_Qmult. change (inject_Z 100) with 100%Q.
  rewrite (Qabs_pos (cut n / 100)); [reflexivity|]. apply Qle_shift_div_l; [reflexivity|]. rewrite Qmult_0_l. apply cut_nonneg. lia.
Qed.
Lemma absolute_tol : forall e t a, (Qabs t < 174467)%Q -> exists b, eq_float e (Absolute t) a = Some b /\
  (b = true -> (dist a e <= Qabs t)%Q) /\ ((dist a e <= Qabs t - (1 # 100000000000000))%Q -> b = true) /\ (forall m, (Qabs t == m # 100000000000000)%Q -> ((dist a e <= Qabs t)%Q -> b = true)).
Proof.
  intros e t a L. destruct (scaled_total t) as [n H]; [eapply Qlt_le_trans; [exact L|discriminate]|]. cbn [eq_float]. rewrite H. eexists. split; [reflexivity|].
  destruct (scaled_spec t n H) as (N & A & B). destruct (cut_bounds t n H) as [C1 C2].
  assert (K : n + apx_B < 2 ^ 64).
  { assert (X : (inject_Z n < 174467 * inject_Z apx_A)%Q). { eapply Qle_lt_trans; [exact A|]. apply Qmult_lt_r; [reflexivity|auto]. }
    change (174467 * inject_Z apx_A)%Q with (inject_Z (174467 * apx_A)) in X. rewrite <- Zlt_Qlt in X. unfold apx_A, apx_B in *. lia. }
  pose proof (absolute_code n e a (proj1 N) K) as R. split; [intro E; apply R in E; eapply Qle_trans; eauto|]. split.
  - intro D. apply R. eapply Qle_trans; [exact D|]. lra.
  - intros m M D. apply R. assert (X : (inject_Z m == Qabs t * inject_Z apx_A)%Q) by (rewrite M; unfold apx_A; unfold Qeq; cbn; lia).
    assert (E : n = m). { rewrite <- X in A, B. rewrite <- Zle_Qle in A. rewrite <- Zlt_Qlt in B. lia. } subst m. eapply Qle_trans; [exact D|].
    rewrite M. unfold cut. apply Qle_lteq. right. unfold apx_A, Qeq. cbn. lia.
Qed.
Lemma percent_tol : forall e t a, (1 # 100000000000000 <= Qabs t)%Q -> (Qabs t < 10000)%Q -> exists b, eq_float e (Percent t) a = Some b /\
  (b = true -> (dist a e <= Qabs e * (Qabs t / 100))%Q) /\ ((dist a e <= Qabs e * ((Qabs t - (1 # 100000000000000)) / 100))%Q -> b = true).
Proof.
  intros e t a P L. destruct (scaled_total t) as [n H]; [eapply Qlt_le_trans; [exact L|discriminate]|]. cbn [eq_float]. rewrite H. eexists. split; [reflexivity|].
  destruct (scaled_spec t n H) as (N & A & B). destruct (cut_bounds t n H) as [C1 C2].
  assert (K : 0 < n < apx_B).
  { split.
    - assert (X : (1 <= Qabs t * inject_Z apx_A)%Q). { apply Qmult_le_compat_r with (z := inject_Z apx_A) in P; [|discriminate]. eapply Qle_trans; [|exact P]. discriminate. }
      assert (Y : (inject_Z 1 < inject_Z (n + 1))%Q) by (eapply Qle_lt_trans; [exact X|exact B]). rewrite <- Zlt_Qlt in Y. lia.
    - assert (X : (inject_Z n < 10000 * inject_Z apx_A)%Q). { eapply Qle_lt_trans; [exact A|]. apply Qmult_lt_r; [reflexivity|auto]. }
      change (10000 * inject_Z apx_A)%Q with (inject_Z (10000 * apx_A)) in X. rewrite <- Zlt_Qlt in X. unfold apx_A, apx_B in *. lia. }
  pose proof (percent_code n e a K) as R.
  assert (M : forall x y, (x <= y)%Q -> (Qabs e * (x / 100) <= Qabs e * (y / 100))%Q).
  { intros x y XY. rewrite !(Qmult_comm (Qabs e)). apply Qmult_le_compat_r; [|apply Qabs_nonneg]. apply Qmult_le_compat_r; [auto|discriminate]. }
  split; [intro E; apply R in E; eapply Qle_trans; [exact E|]; apply M; auto|].
  intro D. apply R. eapply Qle_trans; [exact D|]. apply M. lra.
Qed.

(** ** Range *)
Lemma margin0 : Qabs (absolute_margin 0) = 1 # 100000.
Proof. reflexivity. Qed.
Lemma negb_le : forall x y, negb (Qle_bool x y) = true <-> (y < x)%Q.
Proof.
  intros x y. rewrite negb_true_iff. destruct (Qle_bool x y) eqn:E.
  - split; [discriminate|]. intro L. apply Qle_iff in E. lra.
  - split; auto. intros _. apply Qnot_le_lt. intro K. apply Qle_iff in K. congruence.
Qed.
Lemma range_shift : forall start end_ step a, in_range start end_ step a <-> (start < end_ /\ dist a start <= 1 # 100000)%Q \/ in_range (start + step) end_ step a.
Proof.
  intros start end_ step a. split.
  - intros (k & K & L & D). destruct (Z.eq_dec k 0) as [->|N].
    + left. assert (E : (start + inject_Z 0 * step == start)%Q) by (change (inject_Z 0) with 0%Q; ring). unfold dist in *. rewrite E in L, D. auto.
    + right. exists (k - 1). split; [lia|]. assert (E : (start + step + inject_Z (k - 1) * step == start + inject_Z k * step)%Q).
      { unfold Z.sub. rewrite inject_Z_plus. change (inject_Z (-(1)))%Q with (-(1))%Q. ring. } unfold dist in *. rewrite E. auto.
  - intros [[L D]|(k & K & L & D)].
    + exists 0. split; [lia|]. assert (E : (start + inject_Z 0 * step == start)%Q) by (change (inject_Z 0) with 0%Q; ring). unfold dist in *. rewrite E. auto.
    + exists (k + 1). split; [lia|]. assert (E : (start + inject_Z (k + 1) * step == start + step + inject_Z k * step)%Q) by (rewrite inject_Z_plus; change (inject_Z 1) with 1%Q; ring).
      unfold dist in *. rewrite E. auto.
Qed.
Lemma range_none : forall start end_ step a, (0 < step)%Q -> (end_ <= start)%Q -> ~ in_range start end_ step a.
Proof.
  intros start end_ step a P L (k & K & H & _). assert (Q0 : (0 <= inject_Z k * step)%Q) by (apply Qmult_le_0_compat; [change 0%Q with (inject_Z 0); rewrite <- Zle_Qle; auto|apply Qlt_le_weak; auto]). lra.
Qed.
Lemma range_loop_ok : forall fuel start end_ step a, (0 < step)%Q -> (end_ <= start + inject_Z (Z.of_nat fuel) * step)%Q ->
  exists b, (forall more, range_loop (S fuel + more) start end_ step a = Some b) /\ (b = true <-> in_range start end_ step a).
Proof.
  induction fuel as [|f IH]; intros start end_ step a P L.
  - assert (L0 : (end_ <= start)%Q) by (eapply Qle_trans; [exact L|]; apply Qle_lteq; right; change (inject_Z (Z.of_nat 0)) with 0%Q; ring).
    exists false. split; [intro more; cbn; apply Qle_iff in L0; rewrite L0; auto|]. split; [discriminate|]. intro R. exfalso. apply (range_none start end_ step a); auto.
  - destruct (negb (Qle_bool end_ start)) eqn:E.
    + apply negb_le in E. destruct (Qle_bool (Qabs (a - start)) (1 # 100000)) eqn:D.
      * exists true. split; [intro more; cbn [Nat.add range_loop]; apply negb_le in E; rewrite E, margin0, D; auto|]. split; auto. intros _. apply range_shift. left. split; auto. apply Qle_iff. auto.
      * destruct (IH (start + step)%Q end_ step a P) as (b & H1 & H2).
        { eapply Qle_trans; [exact L|]. apply Qle_lteq. right. rewrite Nat2Z.inj_succ. unfold Z.succ. rewrite inject_Z_plus. change (inject_Z 1) with 1%Q. ring. }
        exists b. split; [intro more; cbn [Nat.add range_loop]; apply negb_le in E; rewrite E, margin0, D; apply H1|]. rewrite H2. rewrite (range_shift start). split; [auto|].
        intros [[_ K]|K]; auto. apply Qle_iff in K. unfold dist in K. congruence.
    + exists false. split; [intro more; cbn [Nat.add range_loop]; rewrite E; auto|]. split; [discriminate|]. intro R. exfalso. apply (range_none start end_ step a); auto.
      apply negb_false_iff in E. apply Qle_iff. auto.
Qed.
Lemma enough : forall start end_ step, (0 < step)%Q -> exists n, (end_ <= start + inject_Z (Z.of_nat n) * step)%Q.
Proof.
  intros start end_ step P. exists (Z.to_nat (Qceiling ((end_ - start) / step))).
  assert (K : (inject_Z (Qceiling ((end_ - start) / step)) <= inject_Z (Z.of_nat (Z.to_nat (Qceiling ((end_ - start) / step)))))%Q) by (rewrite <- Zle_Qle; lia).
  assert (C : ((end_ - start) / step <= inject_Z (Z.of_nat (Z.to_nat (Qceiling ((end_ - start) / step)))))%Q) by (eapply Qle_trans; [apply Qle_ceiling|exact K]).
  apply Qmult_le_compat_r with (z := step) in C; [|apply Qlt_le_weak; auto].
  assert (E : ((end_ - start) / step * step == end_ - start)%Q) by (field; intro Z; rewrite Z in P; discriminate). rewrite E in C. lra.
Qed.
Lemma not_omitted : forall x, match x with Some q => Qeq_bool q omitted = false | None => True end -> Qeq_bool (arg x) omitted = match x with Some _ => false | None => true end.
Proof. intros [q|] H; auto. Qed.
Lemma range_ok : forall start end_ step a, (forall q, end_ = Some q -> ~ (q == omitted)%Q) -> (forall q, step = Some q -> (0 < q)%Q) ->
  exists b fuel, (forall more, range_match (fuel + more) start (arg end_) (arg step) a = Some b) /\
    (b = true <-> in_range (match end_ with Some _ => start | None => 0 end) (match end_ with Some q => q | None => start end) (match step with Some q => q | None => 1 end) a).
Proof.
  intros start end_ step a E S.
  assert (Eo : Qeq_bool (arg end_) omitted = match end_ with Some _ => false | None => true end).
  { destruct end_ as [q|]; auto. cbn. destruct (Qeq_bool q omitted) eqn:X; auto. apply Qeq_bool_iff in X. exfalso. apply (E q); auto. }
  assert (So : Qeq_bool (arg step) omitted = match step with Some _ => false | None => true end).
  { destruct step as [q|]; auto. cbn. destruct (Qeq_bool q omitted) eqn:X; auto. apply Qeq_bool_iff in X. specialize (S q eq_refl). rewrite X in S. discriminate. }
  set (s := match end_ with Some _ => start | None => 0%Q end). set (n := match end_ with Some q => q | None => start end). set (st := match step with Some q => q | None => 1%Q end).
  assert (P : (0 < st)%Q) by (destruct step as [q|]; [apply S; auto|reflexivity]).
  destruct (enough s n st P) as [f F]. destruct (range_loop_ok f s n st a P F) as (b & H1 & H2). exists b, (Datatypes.S f). split; auto.
  intro more. unfold range_match. rewrite Eo, So. specialize (H1 more). destruct end_, step; exact H1.
Qed.
Lemma range_diverges : forall start end_ step a, ~ (end_ == omitted)%Q -> ~ (step == omitted)%Q -> (step <= 0)%Q -> (start < end_)%Q -> ~ in_range start end_ step a -> forall fuel, range_match fuel start end_ step a = None.
Proof.
  intros start end_ step a E S N L R fuel. unfold range_match. destruct (Qeq_bool end_ omitted) eqn:X; [apply Qeq_bool_iff in X; contradiction|]. destruct (Qeq_bool step omitted) eqn:Y; [apply Qeq_bool_iff in Y; contradiction|].
  clear X Y. revert start L R. induction fuel as [|f IH]; intros start L R; [auto|]. cbn [range_loop]. assert (L' := L). apply negb_le in L'. rewrite L'.
  destruct (Qle_bool (Qabs (a - start)) (Qabs (absolute_margin 0))) eqn:D.
  - exfalso. apply R. apply range_shift. left. split; auto. apply Qle_iff. rewrite <- margin0. auto.
  - apply IH; [lra|]. intro K. apply R. apply range_shift. auto.
Qed.
Lemma range_empty : forall fuel start end_ step a, ~ (end_ == omitted)%Q -> (end_ <= start)%Q -> range_match (Datatypes.S fuel) start end_ step a = Some false.
Proof.
  intros fuel start end_ step a E L. unfold range_match. destruct (Qeq_bool end_ omitted) eqn:X; [apply Qeq_bool_iff in X; contradiction|]. cbn [range_loop]. apply Qle_iff in L. rewrite L. auto.
Qed.
