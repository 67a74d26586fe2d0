(** Proofs about matchers kept in variables. *)
From Coq Require Import List ZArith NArith Bool Arith Lia.
From Verif Require Import FailModel MatcherModel MatcherSpec MatcherProofs2 NamedModel NamedSpec.
Import ListNotations.

Section Ind.
  Variable P : expr -> Prop.
  Hypothesis HM : forall m, P (EMake m).
  Hypothesis HV : forall x, P (EVar x).
  Hypothesis HO : forall o e, P e -> P (EOp o e).
  Hypothesis HN : forall e, P e -> P (ENot e).
  Hypothesis HC : forall b e1 e2, P e1 -> P e2 -> P (ECond b e1 e2).
  Hypothesis HA : forall e1 e2, P e1 -> P e2 -> P (EAnd e1 e2).
  Hypothesis HR : forall e1 e2, P e1 -> P e2 -> P (EOr e1 e2).
  Hypothesis HL : forall l, Forall P l -> P (EAllOf l).
  Hypothesis HY : forall l, Forall P l -> P (EAnyOf l).
  Hypothesis HZ : forall l, Forall P l -> P (ENoneOf l).
  Fixpoint expr_ind2 (e : expr) : P e :=
    match e with
    | EMake m => HM m
    | EVar x => HV x
    | EOp o e1 => HO o e1 (expr_ind2 e1)
    | ENot e1 => HN e1 (expr_ind2 e1)
    | ECond b a c => HC b a c (expr_ind2 a) (expr_ind2 c)
    | EAnd a c => HA a c (expr_ind2 a) (expr_ind2 c)
    | EOr a c => HR a c (expr_ind2 a) (expr_ind2 c)
    | EAllOf l => HL l ((fix go l : Forall P l := match l with [] => Forall_nil _ | a :: r => Forall_cons _ (expr_ind2 a) (go r) end) l)
    | EAnyOf l => HY l ((fix go l : Forall P l := match l with [] => Forall_nil _ | a :: r => Forall_cons _ (expr_ind2 a) (go r) end) l)
    | ENoneOf l => HZ l ((fix go l : Forall P l := match l with [] => Forall_nil _ | a :: r => Forall_cons _ (expr_ind2 a) (go r) end) l)
    end.
End Ind.

(** the arguments of a call, as in eval *)
Definition args (ltr : bool) : list expr -> store -> list ref * store :=
  fix args (l : list expr) (s : store) : list ref * store :=
  match l with
  | [] => ([], s)
  | e1 :: t => if ltr then let '(r, s1) := eval ltr e1 s in let '(rs, s2) := args t s1 in (r :: rs, s2)
               else let '(rs, s1) := args t s in let '(r, s2) := eval ltr e1 s1 in (r :: rs, s2)
  end.
Lemma args_cons : forall ltr e1 t s, args ltr (e1 :: t) s =
  if ltr then let '(r, s1) := eval ltr e1 s in let '(rs, s2) := args ltr t s1 in (r :: rs, s2)
  else let '(rs, s1) := args ltr t s in let '(r, s2) := eval ltr e1 s1 in (r :: rs, s2).
Proof. reflexivity. Qed.
Lemma eval_all : forall ltr l s, eval ltr (EAllOf l) s = let '(rs, s1) := args ltr l s in (fresh (MAllOf (map (fun r => whole (deref s1 r)) rs)), s1).
Proof. reflexivity. Qed.
Lemma eval_any : forall ltr l s, eval ltr (EAnyOf l) s = let '(rs, s1) := args ltr l s in (fresh (MAnyOf (map (fun r => whole (deref s1 r)) rs)), s1).
Proof. reflexivity. Qed.
Lemma eval_none : forall ltr l s, eval ltr (ENoneOf l) s = let '(rs, s1) := args ltr l s in (fresh (MNoneOf (map (fun r => whole (deref s1 r)) rs)), s1).
Proof. reflexivity. Qed.

(** ** calm expressions *)
Lemma target_eval : forall ltr e s, match target e with Some x => fst (eval ltr e s) = RVar x | None => exists o, fst (eval ltr e s) = RTmp o end.
Proof.
  intros ltr e s. revert s. induction e using expr_ind2; intros s; cbn [target].
  - eexists; reflexivity.
  - reflexivity.
  - specialize (IHe s). cbn [eval]. destruct (eval ltr e s) as [r s1]. cbn [fst] in IHe. destruct (target e).
    + subst r. reflexivity.
    + destruct IHe as [[f m] ->]. eexists; reflexivity.
  - cbn [eval]. destruct (eval ltr e s). eexists; reflexivity.
  - cbn [eval]. destruct (both_copied _ _ _ _) as [[a c] s1]. eexists; reflexivity.
  - cbn [eval]. destruct (both _ _ _ _) as [[a c] s1]. eexists; reflexivity.
  - cbn [eval]. destruct (both _ _ _ _) as [[a c] s1]. eexists; reflexivity.
  - rewrite eval_all. destruct (args ltr l s). eexists; reflexivity.
  - rewrite eval_any. destruct (args ltr l s). eexists; reflexivity.
  - rewrite eval_none. destruct (args ltr l s). eexists; reflexivity.
Qed.
Lemma calm_args : forall ltr l, Forall (fun e => forall s, calm e = true -> snd (eval ltr e s) = s) l -> forall s, forallb calm l = true ->
  args ltr l s = (map (fun e => fst (eval ltr e s)) l, s).
Proof.
  intros ltr l H. induction H as [|e t He Ht IH]; intros s C; [reflexivity|].
  cbn [forallb] in C. apply andb_true_iff in C. destruct C as [C1 C2]. rewrite args_cons. cbn [map].
  destruct ltr.
  - specialize (He s C1). destruct (eval true e s) as [r s1]. cbn [snd fst] in *. subst s1. rewrite (IH s C2). reflexivity.
  - rewrite (IH s C2). specialize (He s C1). destruct (eval false e s) as [r s1]. cbn [snd fst] in *. subst s1. reflexivity.
Qed.
Lemma calm_store : forall ltr e s, calm e = true -> snd (eval ltr e s) = s.
Proof.
  intros ltr e. induction e using expr_ind2; intros s C; cbn [calm] in C.
  - reflexivity.
  - reflexivity.
  - pose proof (target_eval ltr e s) as T. destruct (target e); [discriminate|]. destruct T as [[f m] T].
    cbn [eval]. specialize (IHe s C). destruct (eval ltr e s) as [r s1]. cbn [fst snd] in *. subst. reflexivity.
  - cbn [eval]. specialize (IHe s C). destruct (eval ltr e s) as [r s1]. cbn [snd] in *. exact IHe.
  - apply andb_true_iff in C. destruct C as [C1 C2]. cbn [eval]. unfold both_copied. specialize (IHe1 s C1). specialize (IHe2 s C2). destruct ltr.
    + destruct (eval true e1 s) as [r1 s1]. cbn [snd] in IHe1. subst s1. destruct (eval true e2 s) as [r2 s2]. exact IHe2.
    + destruct (eval false e2 s) as [r1 s1]. cbn [snd] in IHe2. subst s1. destruct (eval false e1 s) as [r2 s2]. exact IHe1.
  - apply andb_true_iff in C. destruct C as [C1 C2]. cbn [eval]. unfold both. specialize (IHe1 s C1). specialize (IHe2 s C2). destruct ltr.
    + destruct (eval true e1 s) as [r1 s1]. cbn [snd] in IHe1. subst s1. destruct (eval true e2 s) as [r2 s2]. exact IHe2.
    + destruct (eval false e2 s) as [r1 s1]. cbn [snd] in IHe2. subst s1. destruct (eval false e1 s) as [r2 s2]. exact IHe1.
  - apply andb_true_iff in C. destruct C as [C1 C2]. cbn [eval]. unfold both. specialize (IHe1 s C1). specialize (IHe2 s C2). destruct ltr.
    + destruct (eval true e1 s) as [r1 s1]. cbn [snd] in IHe1. subst s1. destruct (eval true e2 s) as [r2 s2]. exact IHe2.
    + destruct (eval false e2 s) as [r1 s1]. cbn [snd] in IHe2. subst s1. destruct (eval false e1 s) as [r2 s2]. exact IHe1.
  - rewrite eval_all, (calm_args _ _ H s C). reflexivity.
  - rewrite eval_any, (calm_args _ _ H s C). reflexivity.
  - rewrite eval_none, (calm_args _ _ H s C). reflexivity.
Qed.
Lemma calm_pair : forall ltr e s, calm e = true -> eval ltr e s = (fst (eval ltr e s), s).
Proof. intros ltr e s C. rewrite <- (calm_store ltr e s C) at 3. apply surjective_pairing. Qed.
Lemma calm_args2 : forall ltr l s, forallb calm l = true -> args ltr l s = (map (fun e => fst (eval ltr e s)) l, s).
Proof. intros ltr l s C. apply calm_args; auto. apply Forall_forall. intros e _ s1. apply calm_store. Qed.

Definition means (ltr : bool) (s : store) (e : expr) : Prop :=
  calm e = true -> sober e ->
  logical (snd (deref s (fst (eval ltr e s)))) /\
  forall ci sq v, truth (whole (deref s (fst (eval ltr e s)))) ci sq v = meaning s e ci sq v.
Lemma truth_fresh : forall m ci sq v, truth (whole (flags0, m)) ci sq v = truth m ci sq v.
Proof. reflexivity. Qed.
Lemma means_list : forall ltr s l, Forall (means ltr s) l -> forallb calm l = true -> sober (EAllOf l) ->
  logical (MAllOf (map (fun r => whole (deref s r)) (map (fun e => fst (eval ltr e s)) l))) /\
  forall ci sq v,
    forallb (fun m => truth m ci sq v) (map (fun r => whole (deref s r)) (map (fun e => fst (eval ltr e s)) l)) = forallb (fun e => meaning s e ci sq v) l /\
    existsb (fun m => truth m ci sq v) (map (fun r => whole (deref s r)) (map (fun e => fst (eval ltr e s)) l)) = existsb (fun e => meaning s e ci sq v) l /\
    forallb (fun m => negb (truth m ci sq v)) (map (fun r => whole (deref s r)) (map (fun e => fst (eval ltr e s)) l)) = forallb (fun e => negb (meaning s e ci sq v)) l.
Proof.
  intros ltr s l H. induction H as [|e t He Ht IH]; intros C S0; [cbn; auto|].
  cbn [forallb] in C. apply andb_true_iff in C. destruct C as [C1 C2]. destruct S0 as [S1 S2].
  destruct (IH C2 S2) as [L T]. destruct (He C1 S1) as [L1 T1]. split.
  - cbn [map logical whole]. split; [exact L1|exact L].
  - intros ci sq v. destruct (T ci sq v) as (A & B & D). cbn [map forallb existsb]. rewrite T1, A, B, D. auto.
Qed.
Lemma means_all : forall ltr s, sober_store s -> forall e, means ltr s e.
Proof.
  intros ltr s SS. induction e using expr_ind2; intros C S0; cbn [calm] in C; cbn [sober] in S0.
  - cbn. auto.
  - cbn. split; [apply SS|reflexivity].
  - pose proof (target_eval ltr e s) as T. destruct (target e); [discriminate|]. destruct T as [[f m] T].
    destruct (IHe C S0) as [L I]. cbn [eval]. rewrite T in L, I. rewrite (calm_pair ltr e s C), T. cbn [operate fst deref snd] in *. unfold whole in *. cbn [fst snd] in *.
    split; [exact L|]. intros ci sq v.
    destruct o; cbn [meaning]; rewrite <- I; cbn [apply_op truth f_ci f_sq f_neg].
    + destruct (f_neg f); cbn; rewrite ?negb_involutive; reflexivity.
    + rewrite orb_true_r. reflexivity.
    + rewrite orb_true_r. reflexivity.
    + reflexivity.
    + destruct (e0 =? -1)%Z; reflexivity.
    + reflexivity.
  - destruct (IHe C S0) as [L I]. cbn [eval]. rewrite (calm_pair ltr e s C). cbn [fst fresh deref snd]. split; [cbn [logical whole]; exact L|].
    intros. rewrite truth_fresh. cbn [truth meaning]. rewrite <- I. reflexivity.
  - apply andb_true_iff in C. destruct C as [C1 C2], S0 as [S1 S2]. destruct (IHe1 C1 S1) as [L1 I1], (IHe2 C2 S2) as [L2 I2].
    cbn [eval]. unfold both_copied. destruct ltr; [rewrite (calm_pair true e1 s C1), (calm_pair true e2 s C2)|rewrite (calm_pair false e2 s C2), (calm_pair false e1 s C1)].
    + cbn [fst fresh deref snd]. split; [cbn [logical whole]; auto|]. intros. rewrite truth_fresh. cbn [truth meaning]. rewrite <- I1, <- I2. reflexivity.
    + cbn [fst fresh deref snd]. split; [cbn [logical whole]; auto|]. intros. rewrite truth_fresh. cbn [truth meaning]. rewrite <- I1, <- I2. reflexivity.
  - apply andb_true_iff in C. destruct C as [C1 C2], S0 as [S1 S2]. destruct (IHe1 C1 S1) as [L1 I1], (IHe2 C2 S2) as [L2 I2].
    cbn [eval]. unfold both. destruct ltr; [rewrite (calm_pair true e1 s C1), (calm_pair true e2 s C2)|rewrite (calm_pair false e2 s C2), (calm_pair false e1 s C1)].
    + cbn [fst fresh deref snd]. split; [cbn [logical whole]; auto|]. intros. rewrite truth_fresh. cbn [truth meaning]. rewrite <- I1, <- I2. reflexivity.
    + cbn [fst fresh deref snd]. split; [cbn [logical whole]; auto|]. intros. rewrite truth_fresh. cbn [truth meaning]. rewrite <- I1, <- I2. reflexivity.
  - apply andb_true_iff in C. destruct C as [C1 C2], S0 as [S1 S2]. destruct (IHe1 C1 S1) as [L1 I1], (IHe2 C2 S2) as [L2 I2].
    cbn [eval]. unfold both. destruct ltr; [rewrite (calm_pair true e1 s C1), (calm_pair true e2 s C2)|rewrite (calm_pair false e2 s C2), (calm_pair false e1 s C1)].
    + cbn [fst fresh deref snd]. split; [cbn [logical whole]; auto|]. intros. rewrite truth_fresh. cbn [truth meaning]. rewrite <- I1, <- I2. reflexivity.
    + cbn [fst fresh deref snd]. split; [cbn [logical whole]; auto|]. intros. rewrite truth_fresh. cbn [truth meaning]. rewrite <- I1, <- I2. reflexivity.
  - destruct (means_list ltr s l H C S0) as [L T]. rewrite eval_all, (calm_args2 ltr l s C). cbn [fst fresh deref snd]. split; [exact L|].
    intros ci sq v. rewrite truth_fresh. cbn [meaning]. rewrite <- (proj1 (T ci sq v)). reflexivity.
  - destruct (means_list ltr s l H C S0) as [L T]. rewrite eval_any, (calm_args2 ltr l s C). cbn [fst fresh deref snd]. split; [exact L|].
    intros ci sq v. rewrite truth_fresh. cbn [meaning]. rewrite <- (proj1 (proj2 (T ci sq v))). reflexivity.
  - destruct (means_list ltr s l H C S0) as [L T]. rewrite eval_none, (calm_args2 ltr l s C). cbn [fst fresh deref snd]. split; [exact L|].
    intros ci sq v. rewrite truth_fresh. cbn [meaning]. rewrite <- (proj2 (proj2 (T ci sq v))). reflexivity.
Qed.
Lemma whole_verdict : forall o v, logical (snd o) -> isnull (matches (whole o) ctx0 v) = truth (whole o) false false v.
Proof. intros o v L. rewrite truth_verdict by exact L. cbn [ctx0 c_neg c_ci c_sq]. apply xorb_false_l. Qed.

(** a check without operators on variables *)
Lemma calm_check : forall ltr e v s, calm e = true -> sober e -> sober_store s ->
  run ltr [SOk e v] s = ([meaning s e false false v], s).
Proof.
  intros ltr e v s C S0 SS. cbn [run step]. destruct (means_all ltr s SS e C S0) as [L T].
  rewrite (calm_pair ltr e s C). cbn [app]. rewrite whole_verdict by exact L. rewrite T. reflexivity.
Qed.
Lemma run_app : forall ltr p q s, run ltr (p ++ q) s = let '(a, s1) := run ltr p s in let '(b, s2) := run ltr q s1 in (a ++ b, s2).
Proof.
  induction p as [|st t IH]; intros q s; [cbn; destruct (run ltr q s); reflexivity|].
  cbn [app run]. destruct (step ltr st s) as [b s1]. rewrite IH. destruct (run ltr t s1) as [a s2]. destruct (run ltr q s2) as [c s3]. rewrite app_assoc. reflexivity.
Qed.
(** a whole test of such checks *)
Lemma calm_test : forall ltr l s, (forall e v, In (e, v) l -> calm e = true /\ sober e) -> sober_store s ->
  run ltr (map (fun ev => SOk (fst ev) (snd ev)) l) s = (map (fun ev => meaning s (fst ev) false false (snd ev)) l, s).
Proof.
  intros ltr l s H SS. induction l as [|[e v] t IH]; [reflexivity|].
  change (map (fun ev => SOk (fst ev) (snd ev)) ((e, v) :: t)) with ([SOk e v] ++ map (fun ev => SOk (fst ev) (snd ev)) t).
  destruct (H e v (or_introl eq_refl)) as [C S0].
  rewrite run_app, (calm_check ltr e v s C S0 SS). rewrite IH by (intros e1 v1 I1; apply (H e1 v1); right; exact I1). reflexivity.
Qed.

(** ** what operators on variables leave behind *)
Definition after (ops : list oper) (o o1 : object) : Prop :=
  snd o1 = snd o /\ f_neg (fst o1) = xorb (f_neg (fst o)) (Nat.odd (nots ops)) /\
  f_ci (fst o1) = f_ci (fst o) || existsb is_caseless ops /\ f_sq (fst o1) = f_sq (fst o) || existsb is_squash ops.
Lemma after_nil : forall o, after [] o o.
Proof. intros o. unfold after. cbn. rewrite xorb_false_r, !orb_false_r. auto. Qed.
Lemma nots_app : forall a b, nots (a ++ b) = (nots a + nots b)%nat.
Proof. intros. unfold nots. rewrite filter_app, app_length. reflexivity. Qed.
Lemma after_app : forall a b o o1 o2, after a o o1 -> after b o1 o2 -> after (a ++ b) o o2.
Proof.
  intros a b o o1 o2 (A1 & A2 & A3 & A4) (B1 & B2 & B3 & B4). unfold after.
  rewrite B1, B2, B3, B4, A1, A2, A3, A4, nots_app, Nat.odd_add, !existsb_app, xorb_assoc, <- !orb_assoc. auto.
Qed.
Lemma after_app_rev : forall a b o o1 o2, after b o o1 -> after a o1 o2 -> after (a ++ b) o o2.
Proof.
  intros a b o o1 o2 (B1 & B2 & B3 & B4) (A1 & A2 & A3 & A4). unfold after.
  rewrite A1, A2, A3, A4, B1, B2, B3, B4, nots_app, Nat.odd_add, !existsb_app, xorb_assoc, <- !orb_assoc.
  rewrite (xorb_comm (Nat.odd (nots b))), (orb_comm (existsb is_caseless b)), (orb_comm (existsb is_squash b)). auto.
Qed.
Lemma after_one : forall op f m, after [op] (f, m) (apply_op f op, m).
Proof.
  intros op f m. unfold after. cbn [fst snd]. destruct op; cbn; try (destruct (_ =? _)%Z; cbn);
    rewrite ?orb_false_r, ?orb_true_r, ?xorb_false_r, ?xorb_true_r; auto.
Qed.
Lemma put_same : forall s x o, put s x o x = o.
Proof. intros. unfold put. rewrite N.eqb_refl. reflexivity. Qed.
Lemma put_other : forall s x y o, y <> x -> put s x o y = s y.
Proof. intros. unfold put. destruct (N.eqb_spec y x); [contradiction|reflexivity]. Qed.
Lemma args_after : forall ltr x l, Forall (fun e => forall s, after (written x e) (s x) (snd (eval ltr e s) x)) l ->
  forall s, after (flat_map (written x) l) (s x) (snd (args ltr l s) x).
Proof.
  intros ltr x l H. induction H as [|e t He Ht IH]; intros s; [apply after_nil|].
  rewrite args_cons. cbn [flat_map]. destruct ltr.
  - specialize (He s). destruct (eval true e s) as [r s1]. specialize (IH s1). destruct (args true t s1) as [rs s2]. cbn [snd] in *. eapply after_app; eassumption.
  - specialize (IH s). destruct (args false t s) as [rs s1]. specialize (He s1). destruct (eval false e s1) as [r s2]. cbn [snd] in *. eapply after_app_rev; eassumption.
Qed.
Lemma eval_after : forall ltr x e s, after (written x e) (s x) (snd (eval ltr e s) x).
Proof.
  intros ltr x. induction e using expr_ind2; intros s; cbn [written].
  - apply after_nil.
  - apply after_nil.
  - pose proof (target_eval ltr e s) as T. specialize (IHe s). cbn [eval]. destruct (eval ltr e s) as [r s1]. cbn [fst snd] in *.
    destruct (target e) as [y|].
    + subst r. cbn [operate snd]. destruct (N.eqb_spec x y).
      * subst y. rewrite put_same. eapply after_app; [exact IHe|]. destruct (s1 x) as [f m]. apply after_one.
      * rewrite put_other by assumption. rewrite app_nil_r. exact IHe.
    + destruct T as [[f m] ->]. cbn [operate snd]. rewrite app_nil_r. exact IHe.
  - specialize (IHe s). cbn [eval]. destruct (eval ltr e s) as [r s1]. exact IHe.
  - cbn [eval]. unfold both_copied. destruct ltr.
    + specialize (IHe1 s). destruct (eval true e1 s) as [r1 s1]. specialize (IHe2 s1). destruct (eval true e2 s1) as [r2 s2]. cbn [snd] in *. eapply after_app; eassumption.
    + specialize (IHe2 s). destruct (eval false e2 s) as [r1 s1]. specialize (IHe1 s1). destruct (eval false e1 s1) as [r2 s2]. cbn [snd] in *. eapply after_app_rev; eassumption.
  - cbn [eval]. unfold both. destruct ltr.
    + specialize (IHe1 s). destruct (eval true e1 s) as [r1 s1]. specialize (IHe2 s1). destruct (eval true e2 s1) as [r2 s2]. cbn [snd] in *. eapply after_app; eassumption.
    + specialize (IHe2 s). destruct (eval false e2 s) as [r1 s1]. specialize (IHe1 s1). destruct (eval false e1 s1) as [r2 s2]. cbn [snd] in *. eapply after_app_rev; eassumption.
  - cbn [eval]. unfold both. destruct ltr.
    + specialize (IHe1 s). destruct (eval true e1 s) as [r1 s1]. specialize (IHe2 s1). destruct (eval true e2 s1) as [r2 s2]. cbn [snd] in *. eapply after_app; eassumption.
    + specialize (IHe2 s). destruct (eval false e2 s) as [r1 s1]. specialize (IHe1 s1). destruct (eval false e1 s1) as [r2 s2]. cbn [snd] in *. eapply after_app_rev; eassumption.
  - rewrite eval_all. pose proof (args_after ltr x l H s) as A. destruct (args ltr l s). exact A.
  - rewrite eval_any. pose proof (args_after ltr x l H s) as A. destruct (args ltr l s). exact A.
  - rewrite eval_none. pose proof (args_after ltr x l H s) as A. destruct (args ltr l s). exact A.
Qed.
Lemma run_after : forall ltr x p s, forallb (keeps x) p = true ->
  after (flat_map (fun st => written x (said st)) p) (s x) (snd (run ltr p s) x).
Proof.
  intros ltr x p. induction p as [|st t IH]; intros s K; [apply after_nil|].
  cbn [forallb] in K. apply andb_true_iff in K. destruct K as [K1 K2]. cbn [flat_map run].
  assert (A : after (written x (said st)) (s x) (snd (step ltr st s) x)).
  { destruct st as [y e|e v]; cbn [said step].
    - pose proof (eval_after ltr x e s) as A. destruct (eval ltr e s) as [r s1]. cbn [snd] in *. rewrite put_other; [exact A|].
      cbn [keeps] in K1. apply negb_true_iff in K1. apply N.eqb_neq in K1. exact K1.
    - pose proof (eval_after ltr x e s) as A. destruct (eval ltr e s) as [r s1]. exact A. }
  destruct (step ltr st s) as [b s1]. specialize (IH s1 K2). destruct (run ltr t s1) as [bs s2]. cbn [snd] in *. eapply after_app; eassumption.
Qed.
(** the verdict on a variable, whatever happened before *)
Lemma history : forall ltr x m p v s, s x = (flags0, m) -> logical m -> forallb (keeps x) p = true ->
  fst (run ltr (p ++ [SOk (EVar x) v]) s) =
  fst (run ltr p s) ++
  [let ops := flat_map (fun st => written x (said st)) p in
   xorb (Nat.odd (nots ops)) (truth m (existsb is_caseless ops) (existsb is_squash ops) v)].
Proof.
  intros ltr x m p v s E L K. rewrite run_app. pose proof (run_after ltr x p s K) as A. destruct (run ltr p s) as [a s1]. cbn [snd] in A.
  cbn [run step eval]. cbn [fst app deref]. f_equal. f_equal. rewrite E in A. destruct A as (A1 & A2 & A3 & A4). cbn [fst snd flags0 f_neg f_ci f_sq] in *.
  rewrite whole_verdict by (rewrite A1; exact L). unfold whole. cbn [truth]. rewrite A1, A2, A3, A4. 
  generalize (Nat.odd (nots (flat_map (fun st => written x (said st)) p))) (existsb is_caseless (flat_map (fun st => written x (said st)) p)) (existsb is_squash (flat_map (fun st => written x (said st)) p)).
  intros b1 b2 b3. destruct b1, b2, b3; cbn; destruct (truth m _ _ v); reflexivity.
Qed.

(** ** one variable twice in one expression *)
Lemma twice_verdict : forall ltr x m s v, s x = (flags0, m) -> logical m ->
  fst (run ltr [SOk (EAnd (EVar x) (EOp OpNot (EVar x))) v] s) = [negb (truth m false false v)] /\
  fst (run ltr [SOk (EOr (EVar x) (EOp OpNot (EVar x))) v] s) = [negb (truth m false false v)] /\
  fst (run ltr [SOk (EAllOf [EVar x; EOp OpNot (EVar x)]) v] s) = [negb (truth m false false v)] /\
  fst (run ltr [SOk (EAnyOf [EOp OpNot (EVar x); EVar x]) v] s) = [negb (truth m false false v)].
Proof.
  intros ltr x m s v E L.
  assert (T : forall o, o = (apply_op flags0 OpNot, m) -> logical (whole o)) by (intros o ->; exact L).
  repeat apply conj; destruct ltr; cbn [run step eval both operate deref fresh fst snd app map];
    rewrite ?put_same, ?E; cbn [fst snd]; f_equal; rewrite whole_verdict by (cbn [logical whole fst snd]; auto);
    unfold whole; cbn; destruct (truth m false false v); reflexivity.
Qed.
(** the same negated check again and again *)
Fixpoint alternate (b : bool) (n : nat) : list bool := match n with O => [] | Datatypes.S k => b :: alternate (negb b) k end.
Lemma loop_from : forall ltr x v n s, logical (snd (s x)) ->
  fst (run ltr (repeat (SOk (EOp OpNot (EVar x)) v) n) s) = alternate (negb (truth (whole (s x)) false false v)) n.
Proof.
  intros ltr x v n. induction n as [|n IH]; intros s L; [reflexivity|].
  cbn [repeat run step eval operate alternate]. cbn [deref]. rewrite put_same.
  set (s1 := put s x _). specialize (IH s1). assert (E : s1 x = (apply_op (fst (s x)) OpNot, snd (s x))) by apply put_same.
  rewrite E in IH. specialize (IH L). destruct (run ltr (repeat _ n) s1) as [bs s2]. cbn [fst app] in *. subst bs.
  assert (F : truth (whole (apply_op (fst (s x)) OpNot, snd (s x))) false false v = negb (truth (whole (s x)) false false v)).
  { unfold whole. cbn [truth fst snd apply_op f_neg f_ci f_sq]. destruct (f_neg (fst (s x))); cbn; rewrite ?negb_involutive; reflexivity. }
  rewrite whole_verdict by exact L. rewrite F. reflexivity.
Qed.
Lemma alternate_nth : forall n b k, (k < n)%nat -> nth k (alternate b n) false = if Nat.even k then b else negb b.
Proof.
  induction n as [|n IH]; intros b k H; [lia|]. destruct k; [reflexivity|]. cbn [alternate nth]. rewrite IH by lia.
  rewrite Nat.even_succ, <- Nat.negb_even. destruct (Nat.even k); cbn; rewrite ?negb_involutive; reflexivity.
Qed.
Lemma alternate_length : forall n b, length (alternate b n) = n.
Proof. induction n; intros; cbn; auto. Qed.
Lemma loop : forall ltr x v n s m, s x = (flags0, m) -> logical m ->
  let vs := fst (run ltr (repeat (SOk (EOp OpNot (EVar x)) v) n) s) in
  length vs = n /\ forall k, (k < n)%nat -> nth k vs false = if Nat.even k then negb (truth m false false v) else truth m false false v.
Proof.
  intros ltr x v n s m E L vs. subst vs. rewrite loop_from by (rewrite E; exact L). rewrite E. unfold whole. cbn [fst snd truth flags0 f_neg f_ci f_sq orb].
  split; [apply alternate_length|]. intros k H. rewrite alternate_nth by exact H. rewrite negb_involutive. reflexivity.
Qed.
(** declaring y from x *)
Lemma copied : forall ltr y e p v s, sober_store s -> calm e = true -> sober e -> forallb (keeps y) p = true -> (forall st, In st p -> written y (said st) = []) ->
  fst (run ltr (SLet y e :: p ++ [SOk (EVar y) v]) s) = fst (run ltr (SLet y e :: p) s) ++ [meaning s e false false v].
Proof.
  intros ltr y e p v s SS C S0 K W. change (SLet y e :: p ++ [SOk (EVar y) v]) with ((SLet y e :: p) ++ [SOk (EVar y) v]). rewrite run_app.
  cbn [run step]. rewrite (calm_pair ltr e s C). destruct (means_all ltr s SS e C S0) as [L T].
  set (o := deref s _) in *. set (s0 := put s y o). pose proof (run_after ltr y p s0 K) as A.
  replace (flat_map _ p) with (@nil oper) in A by (clear -W; induction p as [|st t IH]; [reflexivity|]; cbn [flat_map]; rewrite (W st (or_introl eq_refl)); apply IH; intros; apply W; right; assumption).
  destruct (run ltr p s0) as [a s1]. cbn [snd] in A. unfold s0 in A. rewrite put_same in A. cbn [eval fst app deref]. f_equal. f_equal.
  destruct A as (A1 & A2 & A3 & A4). rewrite whole_verdict by (rewrite A1; exact L). unfold whole. cbn [truth]. rewrite A1, A2, A3, A4.
  rewrite <- T. unfold whole. cbn [truth nots filter length existsb is_not]. cbn. rewrite xorb_false_r, !orb_false_r. reflexivity.
Qed.
