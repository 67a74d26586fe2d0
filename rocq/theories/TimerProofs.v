(** Proofs about time limits. *)
From Coq Require Import List NArith ZArith QArith Qround Bool Lia Lqa.
From Verif Require Import Base LineModel JunitModel JunitProofs ValueProofs2 FailModel MockmsgModel MockmsgSpec MockmsgProofs TimerModel TimerSpec.
Import ListNotations.
Local Open Scope Z_scope.

Lemma exact_int rnd n : rounding rnd -> - 2 ^ 53 < n < 2 ^ 53 -> (rnd (inject_Z n) == inject_Z n)%Q.
Proof.
  intros [O E] H. pose proof (E n 0%nat H (Nat.le_0_l _)) as X. cbn [Z.of_nat] in X. change (2 ^ 0) with 1 in X.
  assert (Y : (inject_Z n == inject_Z n / inject_Z 1)%Q) by (unfold Qdiv, Qeq; cbn; lia).
  transitivity (rnd (inject_Z n / inject_Z 1))%Q; [apply Qle_antisym; apply O; rewrite <- Y; apply Qle_refl|]. rewrite X. symmetry. exact Y.
Qed.
Lemma exact_part rnd n : rounding rnd -> - 2 ^ 53 < n < 2 ^ 53 -> (rnd (n # 1024) == n # 1024)%Q.
Proof.
  intros [O E] H. pose proof (E n 10%nat H) as X. change (2 ^ Z.of_nat 10) with 1024 in X.
  assert (Y : (n # 1024 == inject_Z n / inject_Z 1024)%Q) by (unfold Qdiv, Qeq; cbn; lia).
  transitivity (rnd (inject_Z n / inject_Z 1024))%Q; [apply Qle_antisym; apply O; rewrite <- Y; apply Qle_refl|]. rewrite X by lia. symmetry. exact Y.
Qed.
Lemma rnd_eq rnd x y : rounding rnd -> (x == y)%Q -> (rnd x == rnd y)%Q.
Proof. intros [O _] H. apply Qle_antisym; apply O; rewrite H; apply Qle_refl. Qed.
Lemma cost_is rnd start now : rounding rnd -> measurable start now -> (cost rnd start now == rnd ((now - start) # 1000))%Q.
Proof.
  intros R M. unfold measurable in M. unfold cost. set (t := now - start) in *. clearbody t. change (2 ^ 40) with 1099511627776 in M. apply rnd_eq; [exact R|].
  transitivity (rnd (inject_Z (t * 1000)) / 1000000)%Q.
  - apply Qmult_comp; [|reflexivity]. apply rnd_eq; [exact R|]. unfold Qeq. cbn. lia.
  - rewrite exact_int; [|exact R|change (2 ^ 53) with 9007199254740992; lia]. unfold Qdiv, Qeq. cbn. lia.
Qed.
Lemma over rnd start now ms : rounding rnd -> measurable start now -> limit ms -> (Qle_bool (cost rnd start now) (inject_Z ms) = true <-> now - start <= 1000 * ms).
Proof.
  intros R M L. rewrite Qle_bool_iff. rewrite cost_is by assumption. unfold measurable in M. unfold limit in L. set (t := now - start) in *. clearbody t.
  change (2 ^ 40) with 1099511627776 in M. change (2 ^ 31) with 2147483648 in L. pose proof (r_order _ R) as O. split; intro H.
  - destruct (Z.le_gt_cases t (1000 * ms)) as [|G]; [assumption|exfalso].
    assert (A : ((1024 * ms + 1) # 1024 <= rnd (t # 1000))%Q).
    { rewrite <- (exact_part rnd (1024 * ms + 1) R) by (change (2 ^ 53) with 9007199254740992; lia). apply O. unfold Qle; cbn [Qnum Qden inject_Z]; lia. }
    pose proof (Qle_trans _ _ _ A H) as B. unfold Qle in B; cbn [Qnum Qden inject_Z] in B; lia.
  - rewrite <- (exact_int rnd ms R) by (change (2 ^ 53) with 9007199254740992; lia). apply O. unfold Qle; cbn [Qnum Qden inject_Z]; lia.
Qed.
Lemma shown rnd start now : rounding rnd -> measurable start now -> truncated (cost rnd start now) = (now - start) / 1000.
Proof.
  intros R M. pose proof (cost_is rnd start now R M) as C. unfold truncated. unfold measurable in M. set (t := now - start) in *. clearbody t. set (c := cost rnd start now) in *. clearbody c.
  change (2 ^ 40) with 1099511627776 in M. pose proof (r_order _ R) as O. pose proof (Z.div_mod t 1000 ltac:(lia)) as DM. pose proof (Z.mod_pos_bound t 1000 ltac:(lia)) as MB. set (k := t / 1000) in *. set (r := t mod 1000) in *. clearbody k r.
  assert (A : (inject_Z k <= c)%Q).
  { rewrite C. rewrite <- (exact_int rnd k R) by (change (2 ^ 53) with 9007199254740992; lia). apply O. unfold Qle; cbn [Qnum Qden inject_Z]; lia. }
  assert (B : (c <= (1024 * k + 1023) # 1024)%Q).
  { rewrite C. rewrite <- (exact_part rnd (1024 * k + 1023) R) by (change (2 ^ 53) with 9007199254740992; lia). apply O. unfold Qle; cbn [Qnum Qden inject_Z]; lia. }
  assert (P : Qle_bool 0 c = true) by (apply Qle_bool_iff; eapply Qle_trans; [|exact A]; unfold Qle; cbn [Qnum Qden inject_Z]; lia).
  rewrite P. apply Z.le_antisymm.
  - apply Z.lt_succ_r. rewrite Zlt_Qlt. eapply Qle_lt_trans; [apply Qfloor_le|]. eapply Qle_lt_trans; [exact B|]. unfold Qlt; cbn [Qnum Qden inject_Z]; lia.
  - rewrite <- (Qfloor_Z k). apply Qfloor_resp_le, A.
Qed.
Lemma writes_number z : writes (number_of z) z.
Proof.
  destruct (Z.le_gt_cases 0 z) as [H|H]; [left; split; [exact H|apply numeral_of, H]|]. right. split; [exact H|]. destruct z as [|p|p]; [lia|lia|]. exists (dec (Npos p)). split; [reflexivity|]. rewrite numeral_dec. reflexivity.
Qed.
Lemma number_calm z : ~ In 27%N (number_of z).
Proof.
  assert (D : forall n, ~ In 27%N (dec n)). { intros n H. destruct (dec_ok n) as (F & _). rewrite Forall_forall in F. specialize (F _ H). lia. }
  destruct z as [|p|p]; [apply D|apply D|]. cbn [number_of]. intros [H|H]; [discriminate|exact (D _ H)].
Qed.
Lemma slow_text a b : visible (slow a b) = str "performance expect < " ++ number_of a ++ str " ms, but actually cost " ++ number_of b ++ str " ms".
Proof.
  assert (G : forall st w, visible (printf_words (str st) w) = visible [w]).
  { intros st w. unfold printf_words. rewrite vis_style by (reflexivity). change ([w; ?b]) with ([w] ++ [b]). rewrite vis_app. rewrite (vis_style ([27; 123] ++ str "reset" ++ [125])%N) by reflexivity. apply app_nil_r. }
  unfold slow, plain_words. rewrite !vis_app, !G. rewrite (vis_word (number_of a)), (vis_word (number_of b)) by (apply calm, number_calm). rewrite !vis_word by reflexivity. reflexivity.
Qed.
Lemma timer_ok rnd filine ms start now n : rounding rnd -> measurable start now -> limit ms ->
  (exists a b d, n = (a, b, d) /\ fst (timer rnd filine ms start now n) = (a + 1, b + 1, d + 1)) /\
  (snd (timer rnd filine ms start now n) = None <-> now - start <= 1000 * ms) /\
  (now - start > 1000 * ms -> exists t w1 w2, snd (timer rnd filine ms start now n) = Some (Note None t filine []) /\ visible t = str "performance expect < " ++ w1 ++ str " ms, but actually cost " ++ w2 ++ str " ms" /\ writes w1 ms /\ writes w2 ((now - start) / 1000)).
Proof.
  intros R M L. pose proof (over rnd start now ms R M L) as O. pose proof (shown rnd start now R M) as S. split; [destruct n as [[a b] d]; exists a, b, d; split; reflexivity|]. unfold timer. cbn [snd]. rewrite S. destruct (Qle_bool (cost rnd start now) (inject_Z ms)); split.
  - tauto.
  - intro G. assert (now - start <= 1000 * ms) by tauto. lia.
  - split; [discriminate|]. intro G. apply O in G. discriminate.
  - intros _. eexists. exists (number_of ms), (number_of ((now - start) / 1000)). split; [reflexivity|]. split; [apply slow_text|]. split; apply writes_number.
Qed.
Lemma runs_once fuel : (2 <= fuel)%nat -> times_run fuel 0 = Some 1%nat.
Proof. intro H. destruct fuel as [|[|f]]; [lia|lia|]. reflexivity. Qed.
(** a rounding that rounds *)
Definition grid : Z := 2 ^ 1022.
Definition down (x : Q) : Q := (inject_Z (Qfloor (x * inject_Z grid)) / inject_Z grid)%Q.
Lemma grid_pos : 0 < grid. Proof. apply Z.pow_pos_nonneg; lia. Qed.
Lemma down_rounding : rounding down.
Proof.
  pose proof grid_pos as GP. assert (GQ : (0 < inject_Z grid)%Q) by (rewrite (Zlt_Qlt 0) in GP; exact GP). assert (GN : ~ (inject_Z grid == 0)%Q) by (intro H; rewrite H in GQ; discriminate).
  constructor.
  - intros x y H. unfold down. apply Qmult_le_compat_r; [|apply Qlt_le_weak, Qinv_lt_0_compat, GQ]. rewrite <- Zle_Qle. apply Qfloor_resp_le. apply Qmult_le_compat_r; [exact H|apply Qlt_le_weak, GQ].
  - intros n k _ K. unfold down.
    assert (P : grid = 2 ^ Z.of_nat k * 2 ^ (1022 - Z.of_nat k)) by (rewrite <- Z.pow_add_r by lia; unfold grid; f_equal; lia).
    assert (PK : 0 < 2 ^ Z.of_nat k) by (apply Z.pow_pos_nonneg; lia). set (a := 2 ^ Z.of_nat k) in *. set (b := 2 ^ (1022 - Z.of_nat k)) in *. clearbody a b.
    assert (AN : ~ (inject_Z a == 0)%Q) by (intro H; unfold Qeq in H; cbn in H; lia).
    assert (E : (inject_Z n / inject_Z a * inject_Z grid == inject_Z (n * b))%Q). { rewrite P, !inject_Z_mult. field. exact AN. }
    rewrite (Qfloor_comp _ _ E), Qfloor_Z. rewrite inject_Z_mult. rewrite P, inject_Z_mult in *. field. split; [exact AN|]. intro H. apply GN. rewrite H. field.
Qed.
