(** Proofs about the display of values (C79): numbers. *)
From Coq Require Import List NArith ZArith QArith Qabs Qround Bool Arith Lia Lqa.
From Verif Require Import Base LineModel LineSpec JunitModel JunitSpec JunitProofs MessageModel MessageSpec ValueModel ValueSpec.
Import ListNotations.
Local Open Scope N_scope.

Lemma drop_spec : forall c s, exists k, s = repeat c k ++ drop_while c s /\ (forall y x, drop_while c s = y :: x -> y <> c).
Proof.
  intros c s. induction s as [|x s (k & E & L)]; [exists 0%nat; split; [reflexivity|discriminate]|]. cbn [drop_while]. destruct (N.eqb_spec x c) as [->|D].
  - exists (S k). split; [cbn; congruence|exact L].
  - exists 0%nat. split; [reflexivity|]. intros y z H. inversion H; subst. exact D.
Qed.
Lemma rev_repeat : forall (c : N) k, rev (repeat c k) = repeat c k.
Proof. intros c k. induction k as [|k IH]; [reflexivity|]. cbn. rewrite IH. clear. induction k; [reflexivity|]. cbn. congruence. Qed.
Lemma erase_spec : forall c s, exists k, s = erase_last c s ++ repeat c k /\ (forall x y, erase_last c s = x ++ [y] -> y <> c).
Proof.
  intros c s. unfold erase_last. destruct (drop_spec c (rev s)) as (k & E & L). exists k. split.
  - rewrite <- (rev_repeat c k), <- rev_app_distr, <- E, rev_involutive. reflexivity.
  - intros x y H. apply (L y (rev x)). rewrite <- (rev_involutive (drop_while _ _)), H, rev_app_distr. reflexivity.
Qed.
Lemma drop_unique : forall c k s, (forall y x, s = y :: x -> y <> c) -> drop_while c (repeat c k ++ s) = s.
Proof. intros c k s H. induction k as [|k IH]; cbn. - destruct s as [|y x]; [reflexivity|]. cbn. destruct (N.eqb_spec y c) as [->|D]; [exfalso; apply (H c x); reflexivity|reflexivity]. - rewrite N.eqb_refl. exact IH. Qed.
Lemma erase_unique : forall c k s, (forall x y, s = x ++ [y] -> y <> c) -> erase_last c (s ++ repeat c k) = s.
Proof.
  intros c k s H. unfold erase_last. rewrite rev_app_distr, rev_repeat, drop_unique, rev_involutive; [reflexivity|].
  intros y x E. apply (H (rev x) y). rewrite <- (rev_involutive s), E. reflexivity.
Qed.

(** value of digits *)
Definition val (s : bytes) : N := fold_left (fun a c => 10 * a + (c - 48)) s 0.
Lemma val_from : forall s a, fold_left (fun a c => 10 * a + (c - 48)) s a = a * 10 ^ N.of_nat (length s) + val s.
Proof.
  unfold val. induction s as [|c s IH]; intros a; [cbn; lia|]. cbn [fold_left length]. rewrite IH, (IH (10 * 0 + _)). rewrite Nat2N.inj_succ, N.pow_succ_r'. lia.
Qed.
Lemma val_app : forall s t, val (s ++ t) = val s * 10 ^ N.of_nat (length t) + val t.
Proof. intros s t. unfold val at 1. rewrite fold_left_app. apply val_from. Qed.
Lemma val_zeros : forall k, val (repeat 48 k) = 0.
Proof. induction k as [|k IH]; [reflexivity|]. cbn [repeat]. change (48 :: repeat 48 k) with ([48] ++ repeat 48 k). rewrite val_app, IH. reflexivity. Qed.
Lemma six_digits : forall m, m < 1000000 -> Forall (fun c => 48 <= c <= 57) (six m) /\ val (six m) = m.
Proof.
  intros m H. assert (D : forall x, x mod 10 < 10) by (intros; apply N.mod_lt; discriminate). assert (T : m / 100000 < 10) by (apply N.div_lt_upper_bound; [discriminate|exact H]).
  assert (G : forall d, d < 10 -> 48 <= 48 + d <= 57) by (intros; lia). assert (SB : forall x, 48 + x - 48 = x) by (intros; lia).
  unfold six. split; [repeat (constructor; [apply G; first [exact T|apply D]|]); constructor|].
  unfold val. cbn [fold_left]. rewrite !SB.
  pose proof (N.div_mod m 10 ltac:(discriminate)) as E0. pose proof (N.div_mod (m / 10) 10 ltac:(discriminate)) as E1. pose proof (N.div_mod (m / 100) 10 ltac:(discriminate)) as E2.
  pose proof (N.div_mod (m / 1000) 10 ltac:(discriminate)) as E3. pose proof (N.div_mod (m / 10000) 10 ltac:(discriminate)) as E4.
  rewrite N.div_div in E1, E2, E3, E4 by discriminate. change (10 * 10) with 100 in *. change (100 * 10) with 1000 in *. change (1000 * 10) with 10000 in *. change (10000 * 10) with 100000 in *. lia.
Qed.
Lemma six_decimals : forall m, m < 1000000 -> exists e, erase_last 48 (six m) = e /\ ((m = 0 /\ e = []) \/ (m <> 0 /\ decimals m (46 :: e))).
Proof.
  intros m H. destruct (six_digits m H) as (D & V). destruct (erase_spec 48 (six m)) as (k & E & L). set (e := erase_last 48 (six m)) in *. exists e. split; [reflexivity|].
  assert (LE : (length e + k = 6)%nat). { apply (f_equal (@length N)) in E. rewrite app_length, repeat_length in E. symmetry. exact E. }
  assert (VE : val e * 10 ^ N.of_nat k = m). { rewrite <- V, E, val_app, val_zeros, repeat_length. lia. }
  clearbody e. destruct e as [|c e] using rev_ind.
  - left. split; [|reflexivity]. rewrite <- VE. reflexivity.
  - clear IHe. assert (C : c <> 48) by (apply (L e c); reflexivity). assert (F : Forall (fun c => 48 <= c <= 57) (e ++ [c])). { rewrite E in D. apply Forall_app in D. apply D. }
    assert (M : m <> 0). { intros Z. rewrite <- VE in Z. apply N.eq_mul_0 in Z. destruct Z as [Z|Z]; [|apply N.pow_nonzero in Z; [exact Z|discriminate]].
      rewrite val_app in Z. change (val [c]) with (10 * 0 + (c - 48)) in Z. apply Forall_app in F. destruct F as (_ & F). inversion F; subst. lia. }
    right. split; [exact M|]. right. split; [exact M|]. exists e, c. split; [reflexivity|]. split; [lia|]. split; [exact F|]. split; [exact C|].
    replace (6 - length (e ++ [c]))%nat with k by lia. exact VE.
Qed.
Lemma dec_no : forall n c, ~ (48 <= c <= 57) -> ~ In c (dec n).
Proof. intros n c H I. destruct (dec_ok n) as (F & _). rewrite Forall_forall in F. apply H, F, I. Qed.
Lemma existsb_false : forall c s, ~ In c s -> existsb (N.eqb c) s = false.
Proof. intros c s H. destruct (existsb (N.eqb c) s) eqn:E; [|reflexivity]. exfalso. apply existsb_exists in E. destruct E as (x & I & Q). apply N.eqb_eq in Q. subst. contradiction. Qed.
Lemma int_text : forall z, shorten (to_string_int z) = to_string_int z /\ whole z (to_string_int z).
Proof.
  intros z. split.
  - unfold shorten. rewrite existsb_false; [reflexivity|]. unfold to_string_int. destruct z; [apply dec_no; lia|apply dec_no; lia|]. intros [E|E]; [discriminate|]. revert E. apply dec_no. lia.
  - unfold whole, to_string_int. destruct z as [|p|p]; [left; split; [lia|apply dec_ok]|left; split; [lia|apply dec_ok]|]. right. split; [lia|]. exists (dec (N.pos p)). split; [reflexivity|]. apply dec_ok.
Qed.
Lemma micros_nearest : forall q, (0 <= q)%Q -> nearest q (micros q).
Proof.
  intros q P. unfold nearest, micros. set (x := (q * inject_Z 1000000)%Q). set (f := Qfloor x).
  assert (X : (0 <= x)%Q) by (unfold x; change (inject_Z 1000000) with (1000000 # 1)%Q; lra).
  assert (F0 : (0 <= f)%Z) by (unfold f; change 0%Z with (Qfloor 0); apply Qfloor_resp_le, X).
  pose proof (Qfloor_le x) as L1. pose proof (Qlt_floor x) as L2. fold f in L1, L2. rewrite inject_Z_plus in L2. change (inject_Z 1) with 1%Q in L2.
  cbv zeta. destruct (Qcompare_spec (x - inject_Z f) (1 # 2)) as [E|E|E].
  - destruct (Z.even f) eqn:EV.
    + rewrite Z2N.id by exact F0. split; [rewrite Qabs_pos; lra|]. intros _. destruct f; [reflexivity| |lia]. cbn in EV |- *. destruct p; [discriminate|reflexivity|discriminate].
    + rewrite Z2N.id by lia. rewrite inject_Z_plus. change (inject_Z 1) with 1%Q. split; [rewrite Qabs_neg; lra|]. intros _. rewrite Z.even_succ || idtac.
      assert (O : Z.even (f + 1) = true). { rewrite Z.even_add, EV. reflexivity. } destruct (f + 1)%Z eqn:Q1; [reflexivity| |lia]. cbn in O |- *. destruct p; [discriminate|reflexivity|discriminate].
  - rewrite Z2N.id by exact F0. split; [rewrite Qabs_pos; lra|]. intros H. rewrite Qabs_pos in H; lra.
  - rewrite Z2N.id by lia. rewrite inject_Z_plus. change (inject_Z 1) with 1%Q. split; [rewrite Qabs_neg; lra|]. intros H. rewrite Qabs_neg in H; lra.
Qed.
Lemma real_text : forall q, fractional q (shorten (to_string_real q)).
Proof.
  intros q. unfold to_string_real. cbv zeta. set (n := micros (Qabs q)). set (sg := if Qle_bool 0 q then [] else [45]). assert (M : n mod 1000000 < 1000000) by (apply N.mod_lt; discriminate).
  destruct (six_decimals _ M) as (e & E & C). unfold shorten. replace (existsb (N.eqb 46) _) with true; [|symmetry; apply existsb_exists; exists 46; split; [apply in_or_app; right; apply in_or_app; right; left; reflexivity|reflexivity]].
  destruct (erase_spec 48 (six (n mod 1000000))) as (k & S1 & L). rewrite E in S1, L.
  assert (D : forall x y, sg ++ dec (n / 1000000) = x ++ [y] -> y <> 46).
  { intros x y H. destruct (dec_ok (n / 1000000)) as (F & _ & NE & _). destruct (dec (n / 1000000)) as [|z d _] using rev_ind; [contradiction|]. rewrite app_assoc in H. apply app_inj_tail in H. destruct H as (_ & <-).
    apply Forall_app in F. destruct F as (_ & F). inversion F; subst. lia. }
  exists n, (dec (n / 1000000)), (match e with [] => [] | _ => 46 :: e end). split; [apply micros_nearest, Qabs_nonneg|]. split; [|split; [apply dec_ok|]].
  - rewrite S1. rewrite !app_assoc. rewrite (erase_unique 48 k); [|intros x y H; destruct e as [|c e _] using rev_ind; [rewrite app_nil_r in H; apply app_inj_tail in H; destruct H as (_ & <-); discriminate|rewrite app_assoc in H; apply app_inj_tail in H; destruct H as (_ & <-); apply (L e c); reflexivity]].
    destruct e as [|c e].
    + rewrite !app_nil_r. change [46] with (repeat 46 1). apply erase_unique. exact D.
    + rewrite <- (app_nil_r (((sg ++ dec (n / 1000000)) ++ [46]) ++ c :: e)). change (@nil N) with (repeat 46 0). rewrite erase_unique; [rewrite <- !app_assoc; reflexivity|].
      intros x y H. destruct C as [(_ & C)|(_ & [(_ & C)|(_ & ds & z & C & _ & F & _)])]; [discriminate|discriminate|]. inversion C as [C']. rewrite C' in H. rewrite app_assoc in H. apply app_inj_tail in H. destruct H as (_ & <-).
      apply Forall_app in F. destruct F as (_ & F). inversion F; subst. lia.
  - destruct C as [(Z & ->)|(Z & C)]; [left; split; [exact Z|reflexivity]|]. destruct e as [|c e]; [|exact C]. destruct C as [(_ & C)|(_ & ds & z & C & _)]; [discriminate|]. inversion C as [C']. destruct ds; discriminate.
Qed.
