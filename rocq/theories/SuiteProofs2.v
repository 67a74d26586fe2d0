(** Proofs for C84: whole suites. *)
From Coq Require Import List NArith Bool Arith Lia.
From Verif Require Import SuiteModel SuiteSpec SuiteProofs.
Import ListNotations.
Local Open Scope N_scope.

Definition threw (h : how) : bool := match h with HThrew => true | _ => false end.
Lemma no_parts : forall a b, no_cleanup (a ++ b) -> no_cleanup a /\ no_cleanup b.
Proof. intros a b H. unfold no_cleanup in *. rewrite existsb_app in H. apply orb_false_iff in H. auto. Qed.
Lemma none_named : forall (l : list item) (st : state), ptr st = None -> forall k, In k (map fst (declared l)) -> ptr st <> Some k.
Proof. intros l st E k _. rewrite E. discriminate. Qed.
Lemma mads_tail : forall l a x, l = a ++ x -> madds (map fst (declared l)) (map fst (declared x)) = map fst (declared l).
Proof. intros l a x ->. apply (mads_declared _ a x []). rewrite app_nil_r. reflexivity. Qed.

(** a test in a suite without Cleanup *)
Lemma test_plain : forall fuel w act a i c k vs st, distinct (a ++ i :: c) -> no_cleanup (a ++ i :: c) -> ready (a ++ i :: c) st -> hole st = None -> In (k, vs) (cases_of i) ->
  exists st', test fuel w act (a ++ i :: c) k st = Done st' (threw (ending w k (entries st))) /\ ready (a ++ i :: c) st' /\ hole st' = None /\ entries st' = S (entries st) /\
    log st' = seen true a ++ [Ran k (given w i vs) (ending w k (entries st))] ++ (if threw (ending w k (entries st)) then [] else seen false c).
Proof.
  intros fuel w act a i c k vs st D N R H I. rewrite (reach fuel w act a i c k vs st D R I). cbn zeta.
  destruct (no_parts _ _ N) as [Na Ni]. assert (Nc : no_cleanup c) by (apply (no_parts [i] c); auto).
  rewrite (hole_none act a (i :: c) (hole st) Na). rewrite H.
  assert (T : forall ev, exists st', pass fuel w act c (mkstate None None (made st) (S (entries st)) ev) = Done st' false /\ ready (a ++ i :: c) st' /\ hole st' = None /\ entries st' = S (entries st) /\ log st' = ev ++ seen false c).
  { intros ev. eexists. rewrite walk_all; [|apply none_named; reflexivity]. split; [reflexivity|]. cbn [ptr hole made entries log some]. rewrite (hole_none act c [] None Nc).
    split; [|auto]. unfold ready in R |- *. cbn [made]. rewrite R. apply (mads_tail _ (a ++ [i])). rewrite <- app_assoc. reflexivity. }
  unfold cleaner. destruct (ending w k (entries st)) eqn:E; cbn [threw hole forget].
  - destruct (T (seen true a ++ [Ran k (given w i vs) HNormal])) as [st' [P [A [B [C G]]]]]. exists st'. split; [destruct i; exact P|]. rewrite G, <- app_assoc. auto.
  - destruct (T (seen true a ++ [Ran k (given w i vs) HFailed])) as [st' [P [A [B [C G]]]]]. exists st'. split; [destruct i; exact P|]. rewrite G, <- app_assoc. auto.
  - eexists. split; [reflexivity|]. cbn. auto.
Qed.

Definition holds_case (l : list item) (k : N) : Prop := exists a i c vs, l = a ++ i :: c /\ In (k, vs) (cases_of i).
Lemma finds : forall l k, In k (map fst (declared l)) -> holds_case l k.
Proof.
  intros l k I. apply in_map_iff in I. destruct I as [[k1 vs] [E I]]. cbn in E. subst k1. unfold declared in I. apply in_flat_map in I. destruct I as [i [I J]].
  apply in_split in I. destruct I as [a [c ->]]. exists a, i, c, vs. auto.
Qed.
Lemma tests_plain : forall fuel w l, distinct l -> no_cleanup l -> faithful w -> Forall same_types l -> forall order act st, incl order (map fst (declared l)) -> ready l st -> hole st = None ->
  exists logs, tests fuel w act l order st = Some logs /\ length logs = length order /\
    forall j k, nth_error order j = Some k -> exists a i c vs, l = a ++ i :: c /\ In (k, vs) (cases_of i) /\
      nth_error logs j = Some (seen true a ++ [Ran k vs (ending w k (entries st + j))] ++ (if threw (ending w k (entries st + j)) then [] else seen false c)).
Proof.
  intros fuel w l D N F T. induction order as [|k order IH]; intros act st I R H.
  - exists []. split; [reflexivity|]. split; [reflexivity|]. intros [|j] k E; discriminate.
  - destruct (finds l k (I k (or_introl eq_refl))) as [a [i [c [vs [E Ik]]]]]. subst l.
    destruct (test_plain fuel w act a i c k vs st D N R H Ik) as [st' [P [R' [H' [C' G]]]]].
    destruct (IH (S act) st' (fun x J => I x (or_intror J)) R' H') as [logs [Q [L W]]].
    exists (log st' :: logs). cbn [tests]. rewrite P, Q. split; [reflexivity|]. split; [cbn; rewrite L; reflexivity|].
    intros [|j] k1 E.
    + inversion E; subst k1. exists a, i, c, vs. split; auto. split; auto. cbn [nth_error]. rewrite Nat.add_0_r, G. rewrite (given_same w i k vs F); auto.
      apply (proj1 (Forall_forall _ _) T). apply in_or_app. right. left. auto.
    + cbn [nth_error] in E |- *. destruct (W j k1 E) as [a1 [i1 [c1 [vs1 [E1 [I1 G1]]]]]]. exists a1, i1, c1, vs1. split; auto. split; auto. rewrite G1, C'. rewrite Nat.add_succ_comm. reflexivity.
Qed.
Lemma suite_plain : forall fuel w l order, distinct l -> no_cleanup l -> faithful w -> Forall same_types l -> incl order (map fst (declared l)) ->
  exists logs, suite fuel w l order = Some logs /\ length logs = length order /\
    forall j k, nth_error order j = Some k -> exists a i c vs, l = a ++ i :: c /\ In (k, vs) (cases_of i) /\
      nth_error logs j = Some (seen true a ++ [Ran k vs (ending w k j)] ++ match ending w k j with HThrew => [] | _ => seen false c end).
Proof.
  intros fuel w l order D N F T I. unfold suite, enumerate. rewrite walk_all; [|apply none_named; reflexivity].
  destruct (tests_plain fuel w l D N F T order 1%nat (mkstate None (hole_after 0 None l []) (madds [] (map fst (declared l))) 0 ([] ++ seen false l))) as [logs [P [L G]]]; auto.
  - unfold ready. cbn [made]. apply madds_new. exact D.
  - cbn [hole]. apply hole_none. auto.
  - exists logs. split; [exact P|]. split; auto. intros j k E. destruct (G j k E) as [a [i [c [vs [E1 [I1 G1]]]]]]. exists a, i, c, vs. split; auto. split; auto.
    rewrite G1. cbn [entries]. rewrite Nat.add_0_l. destruct (ending w k j); reflexivity.
Qed.

(** *** the bodies *)
Lemma nth_ext_all : forall (A : Type) (l l' : list A), (forall j, nth_error l j = nth_error l' j) -> l = l'.
Proof.
  intros A. induction l as [|x l IH]; intros [|y l'] H; auto; try (specialize (H 0%nat); discriminate).
  assert (E := H 0%nat). inversion E. f_equal. apply IH. intros j. exact (H (S j)).
Qed.

Lemma bodies_app : forall a b, bodies (a ++ b) = bodies a ++ bodies b.
Proof. intros. apply flat_map_app. Qed.
Lemma bodies_seen : forall s l, bodies (seen s l) = [].
Proof. intros s. induction l as [|[n|n|n|k|ks] l IH]; auto. change (seen s (ISetup n :: l)) with ((if s then [SetUp n] else []) ++ seen s l). rewrite bodies_app, IH. destruct s; reflexivity. Qed.
Lemma declared_once : forall l k vs vs', distinct l -> In (k, vs) (declared l) -> In (k, vs') (declared l) -> vs = vs'.
Proof.
  intros l k vs vs' D. unfold distinct in D. induction (declared l) as [|[k1 v1] r IH]; intros A B; [destruct A|]. cbn in D. inversion D as [|? ? N1 D1]; subst.
  assert (U : forall v, In (k, v) r -> In k (map fst r)) by (intros v J; apply in_map_iff; exists (k, v); auto).
  destruct A as [A|A], B as [B|B]; try (inversion A; inversion B; subst; auto; fail); auto.
  - inversion A; subst. elim N1. eauto.
  - inversion B; subst. elim N1. eauto.
Qed.
Lemma each_once : forall fuel w l, distinct l -> no_cleanup l -> faithful w -> Forall same_types l ->
  exists logs, suite fuel w l (map fst (declared l)) = Some logs /\ map bodies logs = map (fun p => [p]) (declared l).
Proof.
  intros fuel w l D N F T. destruct (suite_plain fuel w l (map fst (declared l)) D N F T) as [logs [P [L G]]]; [intros x J; exact J|].
  exists logs. split; auto. apply nth_ext_all. intros j. rewrite !nth_error_map.
  destruct (nth_error (declared l) j) as [[k vs]|] eqn:E.
  - assert (K : nth_error (map fst (declared l)) j = Some k) by (rewrite nth_error_map, E; reflexivity).
    destruct (G j k K) as [a [i [c [vs' [E1 [I1 G1]]]]]]. rewrite G1. cbn [option_map]. f_equal. rewrite bodies_app, bodies_seen. cbn [app bodies flat_map]. fold bodies.
    assert (V : vs' = vs). { apply (declared_once l k); auto. { subst l. apply in_declared; auto. } eapply nth_error_In; eauto. }
    subst vs'. f_equal. destruct (ending w k j); cbn; auto; apply bodies_seen.
  - cbn. apply nth_error_None in E. rewrite <- (map_length fst), <- L in E. apply nth_error_None in E. rewrite E. reflexivity.
Qed.

(** *** with Cleanup *)
Lemma hole_set : forall act h a n b r, no_cleanup b -> hole_after act h (a ++ ICleanup n :: b) r = Some (act, n, b ++ r).
Proof. intros. rewrite hole_app. cbn. apply hole_none. auto. Qed.
Lemma test_cleanup : forall fuel w act a n b k c st, distinct (a ++ ICleanup n :: b ++ ICase k :: c) -> no_cleanup b -> ready (a ++ ICleanup n :: b ++ ICase k :: c) st -> ending w k (entries st) <> HThrew ->
  exists st', test (S fuel) w act (a ++ ICleanup n :: b ++ ICase k :: c) k st = Done st' false /\ ready (a ++ ICleanup n :: b ++ ICase k :: c) st' /\ entries st' = S (entries st) /\
    log st' = seen true a ++ seen true b ++ [Ran k [] (ending w k (entries st)); CleanedUp n] ++ seen false b ++ seen false c.
Proof.
  intros fuel w act a n b k c st D Nb R E.
  assert (L : a ++ ICleanup n :: b ++ ICase k :: c = (a ++ ICleanup n :: b) ++ ICase k :: c) by (rewrite <- app_assoc; reflexivity).
  rewrite L in *. rewrite (reach (S fuel) w act (a ++ ICleanup n :: b) (ICase k) c k [] st D R) by (left; reflexivity). cbn zeta. rewrite hole_set by auto.
  assert (T : forall ev, exists st', pass fuel w act (b ++ ICase k :: c) (mkstate None (Some (act, n, b ++ ICase k :: c)) (made st) (S (entries st)) ev) = Done st' false /\
    ready ((a ++ ICleanup n :: b) ++ ICase k :: c) st' /\ entries st' = S (entries st) /\ log st' = ev ++ seen false b ++ seen false c).
  { intros ev. eexists. rewrite walk_all; [|apply none_named; reflexivity]. split; [reflexivity|]. cbn [ptr hole made entries log some]. rewrite seen_app. cbn [seen flat_map app].
    split; [|auto]. unfold ready in R |- *. cbn [made]. rewrite R. apply (mads_tail _ (a ++ [ICleanup n])). rewrite <- !app_assoc. reflexivity. }
  unfold cleaner, given. cbn [forget hole ptr made entries log say jumps]. rewrite Nat.eqb_refl.
  destruct (T ((seen true (a ++ ICleanup n :: b) ++ [Ran k [] (ending w k (entries st))]) ++ [CleanedUp n])) as [st' [P [A [C G]]]].
  exists st'. split.
  - destruct (ending w k (entries st)); try (elim E; reflexivity); exact P.
  - split; auto. split; auto. rewrite G. rewrite seen_app. change (seen true (ICleanup n :: b)) with (seen true b). rewrite <- !app_assoc. reflexivity.
Qed.
Definition no_cases (i : item) : Prop := match i with ICases _ => False | _ => True end.
Lemma case_item : forall i k vs, no_cases i -> In (k, vs) (cases_of i) -> i = ICase k.
Proof. intros [n|n|n|k0|ks] k vs N I; cbn in *; try tauto. destruct I as [E|[]]. inversion E; auto. Qed.
Lemma tests_cleanup : forall fuel w a n b, distinct (a ++ ICleanup n :: b) -> no_cleanup b -> declared a = [] -> Forall no_cases b -> (forall k e, ending w k e <> HThrew) ->
  forall order act st, incl order (map fst (declared b)) -> ready (a ++ ICleanup n :: b) st ->
  exists logs, tests (S fuel) w act (a ++ ICleanup n :: b) order st = Some logs /\ length logs = length order /\
    forall j k, nth_error order j = Some k -> exists b1 c, b = b1 ++ ICase k :: c /\
      nth_error logs j = Some (seen true a ++ seen true b1 ++ [Ran k [] (ending w k (entries st + j)); CleanedUp n] ++ seen false b).
Proof.
  intros fuel w a n b D Nb Da T E. induction order as [|k order IH]; intros act st I R.
  - exists []. split; [reflexivity|]. split; [reflexivity|]. intros [|j] k E1; discriminate.
  - destruct (finds b k (I k (or_introl eq_refl))) as [b1 [i [c [vs [Eb Ik]]]]]. subst b.
    assert (i = ICase k). { apply (case_item i k vs); auto. apply (proj1 (Forall_forall _ _) T). apply in_or_app. right. left. auto. } subst i.
    destruct (test_cleanup fuel w act a n b1 k c st D (proj1 (no_parts _ _ Nb)) R (E k (entries st))) as [st' [P [R' [C' G]]]].
    destruct (IH (S act) st' (fun x J => I x (or_intror J)) R') as [logs [Q [L W]]].
    exists (log st' :: logs). cbn [tests]. rewrite P, Q. split; [reflexivity|]. split; [cbn; rewrite L; reflexivity|].
    intros [|j] k1 E1.
    + inversion E1; subst k1. exists b1, c. split; auto. cbn [nth_error]. rewrite Nat.add_0_r, G. rewrite seen_app. reflexivity.
    + cbn [nth_error] in E1 |- *. destruct (W j k1 E1) as [b2 [c2 [E2 G2]]]. exists b2, c2. split; auto. rewrite G2, C'. rewrite Nat.add_succ_comm. reflexivity.
Qed.
Lemma suite_cleanup : forall fuel w a n b order, distinct (a ++ ICleanup n :: b) -> no_cleanup b -> declared a = [] -> Forall no_cases b -> (forall k e, ending w k e <> HThrew) ->
  incl order (map fst (declared b)) -> (1 <= fuel)%nat ->
  exists logs, suite fuel w (a ++ ICleanup n :: b) order = Some logs /\ length logs = length order /\
    forall j k, nth_error order j = Some k -> exists b1 c, b = b1 ++ ICase k :: c /\
      nth_error logs j = Some (seen true a ++ seen true b1 ++ [Ran k [] (ending w k j); CleanedUp n] ++ seen false b).
Proof.
  intros [|fuel] w a n b order D Nb Da T E I Fu; [lia|]. unfold suite, enumerate. rewrite walk_all; [|apply none_named; reflexivity].
  apply (tests_cleanup fuel w a n b D Nb Da T E order 1%nat (mkstate None (hole_after 0 None (a ++ ICleanup n :: b) []) (madds [] (map fst (declared (a ++ ICleanup n :: b)))) 0 ([] ++ seen false (a ++ ICleanup n :: b)))); auto.
  unfold ready. cbn [made]. apply madds_new. exact D.
Qed.

(** *** Cases with Cleanup never ends *)
Lemma endless : forall w act a n b ks c k vs, distinct (a ++ ICleanup n :: b ++ ICases ks :: c) -> no_cleanup b -> In (k, vs) ks ->
  forall fuel st, ready (a ++ ICleanup n :: b ++ ICases ks :: c) st -> ptr st = Some k -> hole st = Some (act, n, b ++ ICases ks :: c) -> pass fuel w act (b ++ ICases ks :: c) st = OutOfFuel.
Proof.
  intros w act a n b ks c k vs D Nb I. set (l := a ++ ICleanup n :: b ++ ICases ks :: c) in *.
  assert (L : l = (a ++ ICleanup n :: b) ++ ICases ks :: c) by (unfold l; rewrite <- app_assoc; reflexivity).
  assert (D' := D). rewrite L in D'. destruct (apart _ _ _ k vs D' I) as [Na [Di Nc]]. cbn [cases_of] in Di.
  assert (M1 : madds (map fst (declared l)) (map fst (declared b)) = map fst (declared l)). { apply (mads_declared l (a ++ [ICleanup n]) b (ICases ks :: c)). unfold l. rewrite <- app_assoc. reflexivity. }
  assert (M2 : madds (map fst (declared l)) (map fst ks) = map fst (declared l)).
  { assert (E : ks = declared [ICases ks]) by (cbn; rewrite app_nil_r; auto). rewrite E at 1. apply (mads_declared l (a ++ ICleanup n :: b) [ICases ks] c). rewrite L. reflexivity. }
  induction fuel as [|fuel IH]; intros st R P H;
    (rewrite walk; [|rewrite P; intros k1 I1 E1; inversion E1; subst k1; apply Na; rewrite declared_app, map_app; apply in_or_app; right; cbn; auto]);
    rewrite (hole_none act b (ICases ks :: c) (hole st) Nb), P, H; rewrite pass_cons;
    (rewrite (doors_open _ _ ks None _ k vs Di I) by reflexivity); cbn [ptr hole made entries log]; unfold ready in R; rewrite R, M1, M2; unfold body; cbn [ptr hole made entries log];
    unfold cleaner; cbn [hole]; rewrite Nat.eqb_refl.
  - destruct (ending w k (entries st)); reflexivity.
  - cbn [jumps]. destruct (ending w k (entries st)); (apply IH; [unfold ready; reflexivity|reflexivity|reflexivity]).
Qed.
Lemma cases_endless : forall fuel w act a n b ks c k vs st, distinct (a ++ ICleanup n :: b ++ ICases ks :: c) -> no_cleanup b -> In (k, vs) ks ->
  made st = map fst (declared (a ++ ICleanup n :: b ++ ICases ks :: c)) -> test fuel w act (a ++ ICleanup n :: b ++ ICases ks :: c) k st = OutOfFuel.
Proof.
  intros fuel w act a n b ks c k vs st D Nb I R. unfold test.
  assert (D' := D). replace (a ++ ICleanup n :: b ++ ICases ks :: c) with ((a ++ ICleanup n :: b) ++ ICases ks :: c) in D' by (rewrite <- app_assoc; reflexivity).
  destruct (apart _ _ _ k vs D' I) as [Na _]. rewrite declared_app, map_app in Na.
  rewrite walk; [|cbn [ptr]; intros k1 I1 E1; inversion E1; subst k1; apply Na; apply in_or_app; auto].
  rewrite pass_cons. apply (endless w act a n b ks c k vs D Nb I); try reflexivity.
  unfold ready. cbn [made]. rewrite R. apply (mads_declared _ [] a (ICleanup n :: b ++ ICases ks :: c)). reflexivity.
Qed.
Lemma cases_endless_suite : forall w a n b ks c k vs, distinct (a ++ ICleanup n :: b ++ ICases ks :: c) -> no_cleanup b -> In (k, vs) ks ->
  forall fuel st t, enumerate fuel w (a ++ ICleanup n :: b ++ ICases ks :: c) = Done st t -> forall fuel' act, test fuel' w act (a ++ ICleanup n :: b ++ ICases ks :: c) k st = OutOfFuel.
Proof.
  intros w a n b ks c k vs D Nb I fuel st t E fuel' act. apply (cases_endless fuel' w act a n b ks c k vs st D Nb I).
  destruct (registered fuel w _ D) as [st1 [E1 [M _]]]. rewrite E1 in E. inversion E; subst. exact M.
Qed.

(** *** what is false *)
Definition quiet : world := mkworld (fun t v => (t, snd v)) (fun _ _ => HNormal).
Lemma quiet_faithful : faithful quiet. Proof. intros t v. reflexivity. Qed.
Lemma cleanup_behind : exists l k fuel st, declared l = [(k, [])] /\ In (ICleanup 1) l /\ enumerate fuel quiet l = Done st false /\ forall fuel', test fuel' quiet 1 l k st = Stale.
Proof. exists [ICase 7; ICleanup 1], 7, 0%nat. eexists. split; [reflexivity|]. split; [right; left; reflexivity|]. split; [reflexivity|]. intros [|f]; reflexivity. Qed.
Lemma other_type : exists w l logs, faithful w /\ suite 0 w l (map fst (declared l)) = Some logs /\ map bodies logs <> map (fun p => [p]) (declared l) /\ no_cleanup l /\ distinct l.
Proof.
  exists quiet, [ICases [(1, [(0, 5)]); (2, [(1, 6)])]]. eexists. split; [exact quiet_faithful|]. split; [reflexivity|]. split; [discriminate|]. split; [reflexivity|].
  unfold distinct. cbn. constructor; [intros [H|[]]; discriminate|]. constructor; [intros []|constructor].
Qed.
Lemma cleanup_cases : exists l k, declared l = [(k, [(0, 5)])] /\ (exists st, enumerate 0 quiet l = Done st false /\ forall fuel, test fuel quiet 1 l k st = OutOfFuel).
Proof.
  exists [ICleanup 1; ICases [(7, [(0, 5)])]], 7. split; [reflexivity|]. eexists. split; [reflexivity|]. intros fuel.
  apply (cases_endless fuel quiet 1%nat [] 1 [] [(7, [(0, 5)])] [] 7 [(0, 5)]); try reflexivity; [|left; reflexivity]. unfold distinct. cbn. constructor; [intros []|constructor].
Qed.
