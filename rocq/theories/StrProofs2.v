(** Squashing. *)
From Coq Require Import List NArith Bool Arith Lia.
From Verif Require Import Base StrModel StrSpec.
Import ListNotations.
Local Open Scope N_scope.

Definition nonul (s : bytes) : Prop := ~ In 0 s.
Lemma c_str_id : forall s, nonul s -> c_str s = s.
Proof. induction s as [|c s IH]; intros H; auto. cbn. destruct (N.eqb_spec c 0) as [->|N]; [exfalso; apply H; left; auto|]. rewrite IH; auto. intro; apply H; right; auto. Qed.
Lemma skip_split : forall s, exists a, s = a ++ skip_blanks s /\ Forall (fun c => blank c = true) a.
Proof. induction s as [|c s (a & E & F)]; [exists []; auto|]. cbn. destruct (blank c) eqn:B; [exists (c :: a); cbn; split; [congruence|auto]|exists []; auto]. Qed.
Lemma skip_head : forall s c b, skip_blanks s = c :: b -> blank c = false.
Proof. induction s as [|x s IH]; intros c b H; [discriminate|]. cbn in H. destruct (blank x) eqn:B; eauto. inversion H; subst; auto. Qed.
Lemma trim_split : forall s, nonul s -> exists a b, s = a ++ trim s ++ b /\ Forall (fun c => blank c = true) a /\ Forall (fun c => blank c = true) b.
Proof.
  intros s N. unfold trim. destruct (skip_split s) as (a & E & F). destruct (skip_split (rev (skip_blanks s))) as (b & E2 & F2). exists a, (rev b).
  assert (R : skip_blanks s = rev (skip_blanks (rev (skip_blanks s))) ++ rev b) by (rewrite <- rev_app_distr, <- E2, rev_involutive; reflexivity).
  rewrite c_str_id; [|intros I; apply N; rewrite E, R; apply in_or_app; right; apply in_or_app; auto]. split; [rewrite <- R; auto|]. split; auto. apply Forall_rev. auto.
Qed.
Lemma trim_head : forall s c b, nonul s -> trim s = c :: b -> blank c = false.
Proof.
  intros s c b N H. unfold trim in H. destruct (skip_split (rev (skip_blanks s))) as (q & E2 & F2).
  assert (R : skip_blanks s = rev (skip_blanks (rev (skip_blanks s))) ++ rev q) by (rewrite <- rev_app_distr, <- E2, rev_involutive; reflexivity).
  rewrite c_str_id in H; [|intros I; apply N; destruct (skip_split s) as (a & E & _); rewrite E, R; apply in_or_app; right; apply in_or_app; auto].
  rewrite H in R. cbn in R. eapply skip_head. exact R.
Qed.
Lemma trim_last : forall s a c, nonul s -> trim s = a ++ [c] -> blank c = false.
Proof.
  intros s a c N H. unfold trim in H. destruct (skip_split (rev (skip_blanks s))) as (q & E2 & F2).
  rewrite c_str_id in H. 2: { assert (R : skip_blanks s = rev (skip_blanks (rev (skip_blanks s))) ++ rev q) by (rewrite <- rev_app_distr, <- E2, rev_involutive; reflexivity).
    intros I; apply N; destruct (skip_split s) as (x & E & _); rewrite E, R; apply in_or_app; right; apply in_or_app; auto. }
  apply (f_equal (@rev BinNums.N)) in H. rewrite rev_involutive, rev_app_distr in H. cbn in H. eapply skip_head. exact H.
Qed.
Lemma trim_id : forall r, nonul r -> (forall c b, r = c :: b -> blank c = false) -> (forall a c, r = a ++ [c] -> blank c = false) -> trim r = r.
Proof.
  intros r N H L. unfold trim. assert (S1 : skip_blanks r = r) by (destruct r as [|c r]; auto; cbn; rewrite (H c r eq_refl); auto). rewrite S1.
  assert (S2 : skip_blanks (rev r) = rev r). { destruct (rev r) as [|c q] eqn:E; auto. cbn. assert (R : r = rev q ++ [c]) by (rewrite <- (rev_involutive r), E; reflexivity). rewrite (L _ _ R). auto. }
  rewrite S2, rev_involutive. apply c_str_id. auto.
Qed.

(** one step of the loop, quotes *)
Definition flip (quote : bool) (k c : N) (q : bool) : bool := if negb quote && (c =? k) then negb q else q.
Lemma flip_blank : forall quote k q, k = 39 \/ k = 34 -> flip quote k 32 q = q. Proof. intros quote k q [->| ->]; unfold flip; destruct quote; reflexivity. Qed.
Lemma loop_step : forall quote q1 q2 sp c s, squash_loop quote q1 q2 sp (c :: s) =
  if blank c then (if negb q1 && negb q2 then match sp with O => 32 :: squash_loop quote q1 q2 1 s | S n => squash_loop quote q1 q2 (S (S n)) s end else 32 :: squash_loop quote q1 q2 sp s)
  else c :: squash_loop quote (flip quote 39 c q1) (flip quote 34 c q2) 0 s.
Proof.
  intros quote q1 q2 sp c s. cbn [squash_loop]. destruct (blank c) eqn:B.
  - cbn [N.eqb Pos.eqb]. change (32 =? 39) with false. change (32 =? 34) with false. change (32 =? 32) with true. rewrite !andb_false_r. cbv iota. destruct q1, q2; reflexivity.
  - assert (C : (c =? 32) = false) by (unfold blank in B; destruct (c =? 32); auto; rewrite orb_true_r in B; discriminate). rewrite C. rewrite andb_false_r. reflexivity.
Qed.
Lemma loop_blanks : forall quote t q1 q2 sp c, In c (squash_loop quote q1 q2 sp t) -> blank c = true -> c = 32.
Proof.
  induction t as [|x t IH]; intros q1 q2 sp c I B; [destruct I|]. rewrite loop_step in I. destruct (blank x) eqn:X.
  - destruct (negb q1 && negb q2); [destruct sp as [|n]|]; [destruct I as [<-|I]; eauto|eauto|destruct I as [<-|I]; eauto].
  - destruct I as [<-|I]; [congruence|eauto].
Qed.
Lemma loop_solid : forall quote t q1 q2 sp, solid (squash_loop quote q1 q2 sp t) = solid t.
Proof.
  induction t as [|x t IH]; intros q1 q2 sp; auto. rewrite loop_step. unfold solid in *. cbn [filter]. change (is_blank x) with (blank x). destruct (blank x) eqn:X; cbn [negb].
  - destruct (negb q1 && negb q2); [destruct sp as [|n]|]; cbn [filter]; try (change (negb (is_blank 32)) with false; cbv iota); apply IH.
  - cbn [filter]. change (is_blank x) with (blank x). rewrite X. cbn [negb]. f_equal. apply IH.
Qed.
Lemma loop_in : forall quote t q1 q2 sp c, In c (squash_loop quote q1 q2 sp t) -> c = 32 \/ In c t.
Proof.
  induction t as [|x t IH]; intros q1 q2 sp c I; [destruct I|]. rewrite loop_step in I. cbn [In]. destruct (blank x) eqn:X.
  - destruct (negb q1 && negb q2); [destruct sp as [|n]|]; [destruct I as [<-|I]; auto; apply IH in I; tauto|apply IH in I; tauto|destruct I as [<-|I]; auto; apply IH in I; tauto].
  - destruct I as [<-|I]; auto. apply IH in I. tauto.
Qed.
Lemma loop_last : forall quote t q1 q2 sp c, blank c = false -> exists u, squash_loop quote q1 q2 sp (t ++ [c]) = u ++ [c].
Proof.
  induction t as [|x t IH]; intros q1 q2 sp c B; cbn [app]; rewrite loop_step.
  - rewrite B. exists []. reflexivity.
  - destruct (blank x); [destruct (negb q1 && negb q2); [destruct sp as [|n]|]|].
    + destruct (IH q1 q2 1%nat c B) as (u & ->). exists (32 :: u). reflexivity.
    + apply IH. auto.
    + destruct (IH q1 q2 sp c B) as (u & ->). exists (32 :: u). reflexivity.
    + destruct (IH (flip quote 39 x q1) (flip quote 34 x q2) 0%nat c B) as (u & ->). exists (x :: u). reflexivity.
Qed.
Lemma loop_no_space : forall quote t sp b, squash_loop quote false false (S sp) t <> 32 :: b.
Proof.
  induction t as [|x t IH]; intros sp b H; [discriminate|]. rewrite loop_step in H. destruct (blank x) eqn:B; cbn [negb andb] in H; [apply (IH _ _ H)|]. inversion H; subst. discriminate.
Qed.
Definition inq (quote q1 q2 : bool) (a : bytes) : Prop := quote = false /\ (xorb q1 (Nat.odd (count 39 a)) = true \/ xorb q2 (Nat.odd (count 34 a)) = true).
Lemma count_cons : forall k c a, Nat.odd (count k (c :: a)) = xorb (k =? c) (Nat.odd (count k a)).
Proof. intros k c a. unfold count. cbn [filter]. destruct (k =? c); cbn [length]; [|destruct (Nat.odd _); reflexivity]. rewrite Nat.odd_succ, <- Nat.negb_odd. destruct (Nat.odd _); reflexivity. Qed.
Lemma inq_cons : forall q1 q2 c a, inq false (flip false 39 c q1) (flip false 34 c q2) a <-> inq false q1 q2 (c :: a).
Proof.
  intros q1 q2 c a. unfold inq. rewrite !count_cons. unfold flip. cbn [negb andb]. rewrite (N.eqb_sym 39 c), (N.eqb_sym 34 c).
  destruct (c =? 39), (c =? 34), q1, q2, (Nat.odd (count 39 a)), (Nat.odd (count 34 a)); cbn; tauto.
Qed.
Lemma cons_inj : forall (x y : N) a b, x :: a = y :: b -> x = y /\ a = b. Proof. intros x y a b H. inversion H. auto. Qed.
Lemma loop_adjacent : forall quote t q1 q2 sp a b, (quote = true -> q1 = false /\ q2 = false) -> squash_loop quote q1 q2 sp t = a ++ 32 :: 32 :: b -> inq quote q1 q2 a.
Proof.
  induction t as [|x t IH]; intros q1 q2 sp a b Q H; [destruct a; discriminate|]. rewrite loop_step in H.
  assert (F32 : forall k, k = 39 \/ k = 34 -> flip false k 32 = fun q => q) by (intros k [->| ->]; reflexivity).
  destruct (blank x) eqn:B.
  - destruct (negb q1 && negb q2) eqn:U; [destruct sp as [|n]|].
    + destruct q1, q2; try discriminate. destruct a as [|y a]; cbn [app] in H; apply cons_inj in H; destruct H as [H1 H2].
      * exfalso. apply (loop_no_space _ _ _ _ H2).
      * subst y. apply IH in H2; [exact H2|auto].
    + eapply IH; eauto.
    + destruct quote; [destruct (Q eq_refl); subst; discriminate|]. destruct a as [|y a]; cbn [app] in H; apply cons_inj in H; destruct H as [H1 H2].
      * split; auto. unfold count. cbn. destruct q1, q2; try discriminate; auto.
      * subst y. apply IH in H2; [exact H2|auto].
  - destruct a as [|y a]; cbn [app] in H; apply cons_inj in H; destruct H as [H1 H2]; [subst; discriminate|]. subst y. apply IH in H2; [|intros ->; destruct (Q eq_refl); subst; auto].
    destruct quote; [destruct H2; discriminate|]. apply inq_cons. auto.
Qed.
Lemma loop_id : forall quote r q1 q2 sp, (quote = true -> q1 = false /\ q2 = false) -> (forall c, In c r -> blank c = true -> c = 32) -> (forall a b, r = a ++ 32 :: 32 :: b -> inq quote q1 q2 a) ->
  (sp <> O -> q1 = false -> q2 = false -> forall b, r <> 32 :: b) -> squash_loop quote q1 q2 sp r = r.
Proof.
  induction r as [|c r IH]; intros q1 q2 sp Q Bl Ad St; auto. rewrite loop_step.
  assert (F32 : forall k, k = 39 \/ k = 34 -> flip false k 32 = fun q => q) by (intros k [->| ->]; reflexivity).
  assert (Bl' : forall c, In c r -> blank c = true -> c = 32) by (intros; apply Bl; auto; right; auto).
  assert (Ad' : forall a b, r = a ++ 32 :: 32 :: b -> inq quote (flip quote 39 c q1) (flip quote 34 c q2) a).
  { intros a b E. specialize (Ad (c :: a) b). cbn in Ad. rewrite E in Ad. specialize (Ad eq_refl). destruct quote; [destruct Ad; discriminate|]. apply inq_cons. auto. }
  destruct (blank c) eqn:B.
  - assert (c = 32) by (apply Bl; auto; left; auto). subst c. rewrite !flip_blank in Ad' by auto. destruct (negb q1 && negb q2) eqn:U.
    + destruct q1, q2; try discriminate. destruct sp as [|n]; [|exfalso; apply (St ltac:(discriminate) eq_refl eq_refl r); auto]. f_equal. apply IH; auto. intros _ _ _ b ->. destruct (Ad [] b eq_refl) as [_ [H|H]]; discriminate.
    + f_equal. apply IH; auto. intros _ -> ->. discriminate.
  - f_equal. apply IH; auto; try congruence. intros ->. destruct (Q eq_refl). subst. auto.
Qed.
Lemma squash_nonul : forall quote s, nonul s -> nonul (squash quote s).
Proof. intros quote s N I. unfold squash in I. apply loop_in in I. destruct I as [I|I]; [discriminate|]. destruct (trim_split s N) as (a & b & E & _). apply N. rewrite E. apply in_or_app. right. apply in_or_app. auto. Qed.
Lemma squash_squashed : forall quote s, nonul s -> squashed quote (squash quote s).
Proof.
  intros quote s N. unfold squash. split; [|split; [|split]].
  - intros c I B. eapply loop_blanks; eauto.
  - intros c b E. destruct (trim s) as [|x t] eqn:T; [discriminate|]. pose proof (trim_head s x t N T) as B. rewrite loop_step, B in E. inversion E; subst. exact B.
  - intros a c E. destruct (trim s) as [|x t] eqn:T; [destruct a; discriminate|]. destruct (exists_last (l := x :: t)) as (u & y & Ey); [discriminate|]. rewrite Ey in *.
    pose proof (trim_last s u y N T) as B. destruct (loop_last quote u false false 0 y B) as (v & Ev). rewrite Ev in E. apply app_inj_tail in E. destruct E as [_ <-]. exact B.
  - intros a b E. apply loop_adjacent in E; auto. destruct E as [E1 E2]. split; auto. unfold quoted. destruct E2 as [E2|E2]; rewrite xorb_false_l in E2; auto.
Qed.
Lemma squash_solid : forall quote s, nonul s -> solid (squash quote s) = solid s.
Proof.
  intros quote s N. unfold squash. rewrite loop_solid. destruct (trim_split s N) as (a & b & E & Fa & Fb). rewrite E at 2. unfold solid. rewrite !filter_app.
  assert (Z : forall l, Forall (fun c => blank c = true) l -> filter (fun c => negb (is_blank c)) l = []) by (induction 1 as [|c l H _ IH]; auto; cbn; change (is_blank c) with (blank c); rewrite H; auto).
  rewrite (Z a), (Z b); auto. rewrite app_nil_r. reflexivity.
Qed.
Lemma squashed_fix : forall quote r, nonul r -> squashed quote r -> squash quote r = r.
Proof.
  intros quote r N (B & H & L & A). unfold squash. rewrite trim_id; auto. apply loop_id; auto.
  - intros a b E. destruct (A a b E) as [A1 A2]. split; auto. unfold quoted in A2. rewrite !xorb_false_l. exact A2.
Qed.
Lemma squash_idem : forall quote s, nonul s -> squash quote (squash quote s) = squash quote s.
Proof. intros quote s N. apply squashed_fix; [apply squash_nonul|apply squash_squashed]; auto. Qed.
