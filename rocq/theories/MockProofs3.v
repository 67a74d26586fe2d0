From Coq Require Import List ZArith Bool Lia Arith.
From Verif Require Import MockModel MockSpec MockProofs MockProofs2.
Import ListNotations.
Local Open Scope Z_scope.

Section H.
Context {V R : Type}.
Variables (ab : bool) (ds : list (decl V R)) (ls : list (list V)) (k : mocker V R) (os : list outcome).
Hypothesis E : calls ab (declares ds) ls = (k, os).
Variables (a : list V) (k' : mocker V R) (o : outcome).
Hypothesis M : matches ab k a = (k', o).

Let L := hist_len V R ab ds ls k os E.
Let CS : call_spec ab k a k' o := matches_call_spec V R ab k a k' o (proj1 L) M.

Lemma ms_eq : matchers k = matchers (declares ds). Proof. apply L. Qed.
Lemma at_range : forall j c m, at_ k j c m -> nth_error (ranges ds) j = Some (least c, most c) /\ call c = charged j os /\ nth_error (matchers (declares ds)) j = Some m.
Proof.
  intros j c m [A B]. destruct (declares_dinv V R ds) as [[D1 D2 D3 D4] Bn]. pose proof (calls_hist V R ab ls _ k os D1 E) as [(Ha & Hb & Hc) H2 H3 H4].
  split; [rewrite <- Bn, <- H2; apply nth_bnds; exists c; auto|]. split.
  - destruct (H3 _ _ A) as (c0 & X & _ & _ & Y). rewrite Y, (D3 c0); [lia|]. eapply nth_error_In; eauto.
  - rewrite <- Ha. auto.
Qed.
Lemma range_at : forall j l r, nth_error (ranges ds) j = Some (l, r) -> exists c m, at_ k j c m /\ least c = l /\ most c = r.
Proof.
  intros j l r H. destruct (declares_dinv V R ds) as [[D1 D2 D3 D4] Bn]. pose proof (calls_hist V R ab ls _ k os D1 E) as [(Ha & Hb & Hc) H2 H3 H4].
  rewrite <- Bn, <- H2 in H. apply nth_bnds in H. destruct H as (c & Hn & A & B).
  destruct (at_ex V R k j (proj1 L)) as (c1 & m & At); [apply nth_error_Some; congruence|]. destruct At as [At1 At2]. assert (c1 = c) by congruence. subst c1.
  exists c, m. split; [split; auto|auto].
Qed.
Lemma matcher_at : forall j m, nth_error (matchers (declares ds)) j = Some m -> exists c, at_ k j c m.
Proof.
  intros j m H. rewrite <- ms_eq in H. destruct (at_ex V R k j (proj1 L)) as (c & m1 & [At1 At2]).
  - rewrite <- (proj1 L). apply nth_error_Some. congruence.
  - assert (m1 = m) by congruence. subst. exists c. split; auto.
Qed.

Lemma charge_accepts : (o_reports o = [] -> o_charged o <> None) /\
  (forall i, o_charged o = Some i -> (index k <= i)%nat /\ index k' = i /\ exists m, nth_error (matchers (declares ds)) i = Some m /\ accepts m a).
Proof.
  destruct CS as [S1 S2 S3 S4 S5 S6 S7 S8]. split.
  - intros H N. destruct (S3 N) as (_ & _ & Q). contradiction.
  - intros i Hi. destruct (S2 i Hi) as (c & m & A & B & C & D & _). split; auto. split; auto. exists m. split; auto. apply (at_range i c m A).
Qed.

Lemma unexpected_iff : (In Unexpected (o_reports o) -> o_charged o = None /\ forall j m, (index k <= j)%nat -> nth_error (matchers (declares ds)) j = Some m -> ~ accepts m a) /\
  ((forall j m, (index k <= j)%nat -> nth_error (matchers (declares ds)) j = Some m -> ~ accepts m a) -> o_charged o = None /\ (ab = false -> In Unexpected (o_reports o))).
Proof.
  destruct CS as [S1 S2 S3 S4 S5 S6 S7 S8]. split.
  - intro H. destruct (S6 H) as [A B]. split; auto. intros j m Hj Hm. destruct (matcher_at j m Hm) as [c At]. apply (B j c m); auto.
  - intro H. destruct S8 as [A B]; [intros j c m Hj At; apply (H j m); auto; apply (at_range j c m At)|]. split; auto. intro Ab. apply (B Ab).
Qed.

Lemma mismatch_report : forall j bad, In (Mismatch j bad) (o_reports o) ->
  (index k <= j)%nat /\ (forall i, o_charged o = Some i -> (j < i)%nat) /\
  exists m l r, nth_error (matchers (declares ds)) j = Some m /\ nth_error (ranges ds) j = Some (l, r) /\
    ~ (l <= charged j os <= r) /\ bad <> [] /\ forall p, In p bad <-> refused m a p.
Proof.
  intros j bad H. destruct CS as [S1 S2 S3 S4 S5 S6 S7 S8]. destruct (S7 j bad H) as (c & m & At & Hj & Na & Sf & -> & _ & Hi).
  destruct (at_range j c m At) as (A & B & C). split; auto. split; auto. exists m, (least c), (most c). split; auto. split; auto. split.
  - rewrite <- B. unfold is_satisfied in Sf. lia.
  - split.
    + intro Z. apply tuple_matches_nil in Z. contradiction.
    + intro p. rewrite tuple_matches_in. split; [intros (q & -> & Q); exact Q|intro Q; exists p; auto].
Qed.

Lemma overcall : forall i l r, o_charged o = Some i -> nth_error (ranges ds) i = Some (l, r) -> charged i os = r ->
  forall m, nth_error (matchers (declares ds)) (S i) = Some m -> ~ accepts m a.
Proof.
  intros i l r Hi Hr Hc m Hm. destruct CS as [S1 S2 S3 S4 S5 S6 S7 S8]. destruct (range_at i l r Hr) as (c & m0 & At & A & B). destruct (matcher_at (S i) m Hm) as [c1 At1].
  apply (S5 i c m0 c1 m Hi At); auto. destruct (at_range i c m0 At) as (_ & Q & _). unfold passable, is_saturated. rewrite Q, B, Hc, Z.eqb_refl. auto.
Qed.

Lemma greedy_skip : greed (declares ds) = true -> forall i j l r m, o_charged o = Some i -> (index k <= j < i)%nat -> nth_error (ranges ds) j = Some (l, r) ->
  nth_error (matchers (declares ds)) j = Some m -> accepts m a -> charged j os = r.
Proof.
  intros G i j l r m Hi Hj Hr Hm Ha. destruct CS as [S1 S2 S3 S4 S5 S6 S7 S8]. destruct (matcher_at j m Hm) as [c At]. destruct (at_range j c m At) as (A & B & _).
  rewrite Hr in A. injection A as -> ->. destruct (S4 i j c m Hi Hj At) as [[N _]|[_ P]]; [contradiction|].
  pose proof L as (_ & _ & _ & _ & _ & Gk). rewrite Gk, G in P. unfold passable, is_saturated in P. rewrite orb_true_r in P. cbn in P. rewrite orb_false_r in P. apply Z.eqb_eq in P. lia.
Qed.

Lemma lazy_moves_on : greed (declares ds) = false -> forall i l r, o_charged o = Some i -> nth_error (ranges ds) i = Some (l, r) -> l <= charged i os ->
  forall m, nth_error (matchers (declares ds)) (S i) = Some m -> ~ accepts m a.
Proof.
  intros G i l r Hi Hr Hc m Hm. destruct CS as [S1 S2 S3 S4 S5 S6 S7 S8]. destruct (range_at i l r Hr) as (c & m0 & At & A & B). destruct (matcher_at (S i) m Hm) as [c1 At1].
  apply (S5 i c m0 c1 m Hi At); auto. destruct (at_range i c m0 At) as (_ & Q & _). pose proof L as (_ & _ & _ & _ & _ & Gk). rewrite Gk, G.
  unfold passable, insufficient. rewrite Q, A. replace (charged i os <? l) with false by (symmetry; apply Z.ltb_ge; lia). apply orb_true_r.
Qed.
Lemma skip_done : forall i j l r m, o_charged o = Some i -> (index k <= j < i)%nat -> nth_error (ranges ds) j = Some (l, r) ->
  nth_error (matchers (declares ds)) j = Some m -> accepts m a -> l <= charged j os \/ charged j os = r.
Proof.
  intros i j l r m Hi Hj Hr Hm Ha. destruct CS as [S1 S2 S3 S4 S5 S6 S7 S8]. destruct (matcher_at j m Hm) as [c At]. destruct (at_range j c m At) as (A & B & _).
  rewrite Hr in A. injection A as -> ->. destruct (S4 i j c m Hi Hj At) as [[N _]|[_ P]]; [contradiction|].
  unfold passable, is_saturated, insufficient in P. apply orb_true_iff in P. rewrite <- B. destruct P as [P|P]; [right; apply Z.eqb_eq; auto|left].
  apply negb_true_iff, orb_false_iff in P. destruct P as [P _]. apply Z.ltb_ge in P. auto.
Qed.

Lemma dispatch_spec : (dispatch k' o = None <-> o_aborted o = true) /\
  (o_aborted o = false -> dispatch k' o = Some (match o_charged o with Some i => match nth_error (routines (declares ds)) i with Some (Some r) => Routine r | _ => Original end | None => Original end)).
Proof.
  destruct CS as [S1 S2 S3 S4 S5 S6 S7 S8]. destruct S1 as (_ & Rr & _). pose proof L as (L1 & L2 & L3 & L4 & L5 & L6). unfold dispatch. rewrite Rr, L4.
  destruct (o_aborted o); [split; [tauto|discriminate]|]. destruct (o_charged o) as [i|]; [|split; [split; discriminate|auto]].
  destruct (S2 i eq_refl) as (c & m & At & _). pose proof (at_lt _ _ _ _ _ _ At) as Lt. rewrite <- L2, L4 in Lt.
  destruct (nth_error (routines (declares ds)) i) as [[r|]|] eqn:N; [| |apply nth_error_None in N; lia]; split; auto; split; discriminate.
Qed.
End H.

(** *** groups *)
Definition app_mocker {V R} (k : mocker V R) (c : checkin) (x : list (V -> bool) * option R) : mocker V R :=
  mkmocker (checkins k ++ [c]) (matchers k ++ [fst x]) (routines k ++ [snd x]) (index k) (greed k).
Lemma set_back_app : forall (A : Type) (l : list A) x v, set_back (l ++ [x]) v = l ++ [v].
Proof. intros. unfold set_back. rewrite removelast_last. auto. Qed.
Lemma ensure_app : forall V R (k : mocker V R) c x, ensure (app_mocker k c x) = app_mocker k c x.
Proof. intros. unfold ensure, app_mocker. cbn [checkins]. destruct (checkins k); auto. Qed.
Lemma set_nth_split : forall (A : Type) (l : list A) i v, set_nth l i v = firstn i l ++ match skipn i l with [] => [] | _ :: r => v :: r end.
Proof. induction l as [|y l IH]; intros [|i] v; cbn; auto. f_equal. auto. Qed.
Lemma declare_mod : forall V R (k : mocker V R) c x m, declare (app_mocker k c x) (as_decl m) = app_mocker k c (modify x m).
Proof.
  intros V R k c x m. destruct m as [ms|i m|r]; cbn [as_decl declare]; rewrite ensure_app; unfold app_mocker; cbn [checkins matchers routines index greed modify fst snd].
  - rewrite set_back_app. auto.
  - rewrite set_back_app, last_last, set_nth_split. auto.
  - destruct (routines k ++ [snd x]) eqn:E; [destruct (routines k); discriminate|]. rewrite <- E, removelast_last. auto.
Qed.
Lemma declare_group : forall V R (g : group V R) k, fold_left declare (group_decls g) k = app_mocker k (fresh (g_bounds g)) (group_value g).
Proof.
  intros V R g k. unfold group_decls, group_value. cbn [fold_left declare].
  change (expect k (g_bounds g) (g_matchers g)) with (app_mocker k (fresh (g_bounds g)) (full (g_matchers g), @None R)).
  generalize (full (g_matchers g), @None R). induction (g_mods g) as [|m l IH]; intro x; cbn [map fold_left]; auto. rewrite declare_mod. apply IH.
Qed.
Lemma declare_groups : forall V R (gs : list (group V R)) k, let k' := fold_left declare (flat_map group_decls gs) k in
  checkins k' = checkins k ++ map (fun g => fresh (g_bounds g)) gs /\ matchers k' = matchers k ++ map (fun g => fst (group_value g)) gs /\
  routines k' = routines k ++ map (fun g => snd (group_value g)) gs.
Proof.
  induction gs as [|g gs IH]; intro k; cbn [flat_map fold_left map]; cbv zeta.
  - rewrite !app_nil_r. auto.
  - rewrite fold_left_app, declare_group. destruct (IH (app_mocker k (fresh (g_bounds g)) (group_value g))) as (A & B & C). rewrite A, B, C. unfold app_mocker. cbn [checkins matchers routines].
    rewrite <- !app_assoc. auto.
Qed.
Lemma grouped : forall V R (gs : list (group V R)) (tail : option R), gs <> [] ->
  let k := declares (flat_map group_decls gs ++ match tail with Some r => [Assign r] | None => [] end) in
  matchers k = map (fun g => fst (group_value g)) gs /\
  routines k = map (fun g => match snd (group_value g) with Some r => Some r | None => tail end) gs /\
  map (fun c => (least c, most c)) (checkins k) = map (fun g => range (g_bounds g)) gs.
Proof.
  intros V R gs tail Hne. unfold declares. rewrite fold_left_app. destruct (declare_groups V R gs reset) as (A & B & C). cbn [reset checkins matchers routines app] in A, B, C.
  set (k := fold_left declare (flat_map group_decls gs) reset) in *.
  assert (Bd : map (fun c => (least c, most c)) (checkins k) = map (fun g => range (g_bounds g)) gs).
  { rewrite A, map_map. apply map_ext. intro g. apply fresh_bounds. }
  destruct tail as [r|]; cbn [fold_left declare]; cbv zeta.
  - assert (En : ensure k = k) by (unfold ensure; rewrite A; destruct gs; [congruence|reflexivity]). rewrite En. cbn [matchers routines checkins].
    split; auto. split; auto. rewrite C, map_map. apply map_ext. intro g. destruct (snd (group_value g)); auto.
  - split; auto. split; auto. rewrite C. apply map_ext. intro g. destruct (snd (group_value g)); auto.
Qed.

(** a chain that starts with modifiers declares "any number" first *)
Lemma declares_ensure : forall V R (m : modifier V R) ds, declares (as_decl m :: ds) = declares (Expect Any [] :: as_decl m :: ds).
Proof. intros V R [ms|i m|r] ds; reflexivity. Qed.
Lemma leading : forall V R (ms : list (modifier V R)) (gs : list (group V R)) (tail : option R), ms <> [] ->
  let k := declares (map as_decl ms ++ flat_map group_decls gs ++ match tail with Some r => [Assign r] | None => [] end) in
  let all := mkgroup Any [] ms :: gs in
  matchers k = map (fun g => fst (group_value g)) all /\
  routines k = map (fun g => match snd (group_value g) with Some r => Some r | None => tail end) all /\
  map (fun c => (least c, most c)) (checkins k) = map (fun g => range (g_bounds g)) all.
Proof.
  intros V R ms gs tail H k all. assert (E : k = declares (flat_map group_decls all ++ match tail with Some r => [Assign r] | None => [] end)).
  { unfold k, all. cbn [flat_map group_decls g_bounds g_matchers g_mods]. rewrite <- app_assoc. destruct ms as [|m ms]; [congruence|].
    cbn [map app]. apply declares_ensure. }
  rewrite E. apply grouped. discriminate.
Qed.

(** *** the end of a case *)
Lemma case_verdict : forall V R ab (ks : list (list (decl V R) * list (list V))), (forall ds ls, In (ds, ls) ks -> proper ds) ->
  (fst (clear (map (fun x => fst (calls ab (declares (fst x)) (snd x))) ks) true) = [] <->
   forall ds ls, In (ds, ls) ks -> forall i l r, nth_error (ranges ds) i = Some (l, r) -> l <= charged i (snd (calls ab (declares ds) ls)) <= r).
Proof.
  intros V R ab ks P. unfold clear. cbn [fst]. split.
  - intros H ds ls I. pose proof (verdict_passes V R ab ds ls (fst (calls ab (declares ds) ls)) (snd (calls ab (declares ds) ls)) (P _ _ I)) as Q.
    destruct (calls ab (declares ds) ls) as [k os] eqn:E. cbn [fst snd] in *. apply (Q eq_refl).
    destruct (check k) as [|x t] eqn:C; auto. exfalso.
    assert (N : In (check k) []) by (rewrite <- H; apply filter_In; split; [apply in_map; apply in_map_iff; exists (ds, ls); cbn [fst snd]; rewrite E; auto|rewrite C; auto]). destruct N.
  - intro H. rewrite map_map. induction ks as [|[ds ls] ks IH]; cbn [map filter]; auto. cbn [fst snd].
    pose proof (verdict_passes V R ab ds ls (fst (calls ab (declares ds) ls)) (snd (calls ab (declares ds) ls)) (P _ _ (or_introl eq_refl))) as Q.
    pose proof (H ds ls (or_introl eq_refl)) as Hd. destruct (calls ab (declares ds) ls) as [k os] eqn:E. cbn [fst snd] in *. rewrite (proj2 (Q eq_refl) Hd).
    apply IH; intros; [eapply P; right; eauto|eapply H; eauto; right; auto].
Qed.

(** the mode *)
Lemma mode_kept : forall V R (ds : list (decl V R)) k, (forall b, ~ In (Greed b) ds) -> greed (fold_left declare ds k) = greed k.
Proof.
  intros V R. induction ds as [|d ds IH]; intros k H; [reflexivity|]. cbn [fold_left]. rewrite IH by (intros b I; apply (H b); right; exact I).
  destruct d as [b ms|ms|i m|r|r|b]; try reflexivity; try (cbn; unfold ensure; destruct (checkins k); reflexivity). exfalso. apply (H b). left. reflexivity.
Qed.
Lemma mode_told : forall V R (ds es : list (decl V R)) b, (forall c, ~ In (Greed c) es) -> greed (declares (V := V) (R := R) es) = true /\ greed (declares (ds ++ Greed b :: es)) = b.
Proof.
  intros V R ds es b H. unfold declares. split; [rewrite mode_kept by exact H; reflexivity|]. rewrite fold_left_app. cbn [fold_left]. rewrite mode_kept by exact H. reflexivity.
Qed.
