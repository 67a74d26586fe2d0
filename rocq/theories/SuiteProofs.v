(** Proofs for C84. *)
From Coq Require Import List NArith Bool Arith Lia.
From Verif Require Import SuiteModel SuiteSpec.
Import ListNotations.
Local Open Scope N_scope.

Definition madd (m : list N) (k : N) : list N := if existsb (N.eqb k) m then m else m ++ [k].
Definition madds (m : list N) (ks : list N) : list N := fold_left madd ks m.
Lemma make_eq : forall k st, make k st = mkstate (ptr st) (hole st) (madd (made st) k) (entries st) (log st).
Proof. intros k [p h m e g]. unfold make, madd. cbn. destruct (existsb (N.eqb k) m); reflexivity. Qed.
Lemma madds_cons : forall m k ks, madds m (k :: ks) = madds (madd m k) ks.
Proof. reflexivity. Qed.
Lemma madds_app : forall m a b, madds m (a ++ b) = madds (madds m a) b.
Proof. intros. apply fold_left_app. Qed.
Lemma madds_incl : forall ks m, incl ks m -> madds m ks = m.
Proof.
  induction ks as [|k ks IH]; intros m H; [reflexivity|]. rewrite madds_cons. unfold madd.
  assert (E : existsb (N.eqb k) m = true) by (apply existsb_exists; exists k; split; [apply H; left; auto|apply N.eqb_refl]).
  rewrite E. apply IH. intros x I. apply H. right. auto.
Qed.
Lemma madds_new : forall ks m, NoDup (m ++ ks) -> madds m ks = m ++ ks.
Proof.
  induction ks as [|k ks IH]; intros m H; [symmetry; apply app_nil_r|]. rewrite madds_cons. unfold madd.
  destruct (existsb (N.eqb k) m) eqn:E.
  - apply existsb_exists in E. destruct E as [x [I E]]. apply N.eqb_eq in E. subst x. apply NoDup_remove_2 in H. elim H. apply in_or_app. auto.
  - rewrite IH; rewrite <- app_assoc; auto.
Qed.
Lemma madds_keep : forall ks m x, In x m -> In x (madds m ks).
Proof. induction ks as [|k ks IH]; intros m x I; [auto|]. rewrite madds_cons. apply IH. unfold madd. destruct (existsb (N.eqb k) m); auto. apply in_or_app. auto. Qed.
Lemma madds_in : forall ks m x, In x ks -> In x (madds m ks).
Proof.
  induction ks as [|k ks IH]; intros m x I; [destruct I|]. rewrite madds_cons. destruct I as [->|I]; [|apply IH; auto]. apply madds_keep. unfold madd.
  destruct (existsb (N.eqb x) m) eqn:E; [|apply in_or_app; right; left; auto]. apply existsb_exists in E. destruct E as [y [I E]]. apply N.eqb_eq in E. subst y. auto.
Qed.
Lemma madds_only : forall ks m x, In x (madds m ks) -> In x m \/ In x ks.
Proof.
  induction ks as [|k ks IH]; intros m x I; [auto|]. rewrite madds_cons in I. apply IH in I. destruct I as [I|I]; [|right; right; auto]. unfold madd in I.
  destruct (existsb (N.eqb k) m); auto. apply in_app_or in I. destruct I as [I|[->|[]]]; auto. right. left. auto.
Qed.

(** *** doors *)
Lemma doors_closed : forall w f ks o st, (forall k, In k (map fst ks) -> ptr st <> Some k) ->
  doors w f ks o st = (o, mkstate (ptr st) (hole st) (madds (made st) (map fst ks)) (entries st) (log st)).
Proof.
  intros w f ks. induction ks as [|[k vs] ks IH]; intros o st H.
  - destruct st; reflexivity.
  - cbn [doors]. rewrite make_eq. unfold named at 1. cbn [ptr].
    assert (E : match ptr st with Some c => c =? k | None => false end = false).
    { destruct (ptr st) as [c|] eqn:P; auto. apply N.eqb_neq. intros ->. apply (H k); [left; auto|auto]. }
    rewrite E. rewrite IH; [reflexivity|]. intros k1 I. cbn [ptr]. apply H. right. auto.
Qed.
Lemma doors_open : forall w f ks o st k vs, NoDup (map fst ks) -> In (k, vs) ks -> ptr st = Some k ->
  doors w f ks o st = (Some (k, assigned w f vs), mkstate (ptr st) (hole st) (madds (made st) (map fst ks)) (entries st) (log st)).
Proof.
  intros w f ks. induction ks as [|[k1 vs1] ks IH]; intros o st k vs D I P; [destruct I|].
  cbn [doors]. rewrite make_eq. unfold named at 1. cbn [ptr]. cbn in D. inversion D as [|? ? N1 D1]; subst. rewrite P. destruct I as [E|I].
  - inversion E; subst. rewrite N.eqb_refl. rewrite doors_closed; [cbn [ptr hole made entries log]; reflexivity|]. cbn [ptr]. intros k1 I1 E1. inversion E1; subst. auto.
  - assert (k <> k1). { intros ->. apply N1. apply in_map_iff. exists (k1, vs). auto. }
    replace (k =? k1) with false by (symmetry; apply N.eqb_neq; auto). rewrite (IH _ _ k vs D1 I); [reflexivity|auto].
Qed.
Lemma assigned_same : forall w f vs, faithful w -> map fst vs = map fst f -> assigned w f vs = vs.
Proof.
  intros w f. induction f as [|[t v] f IH]; intros [|[t1 v1] vs] F E; cbn in E; try discriminate; auto.
  inversion E; subst. unfold assigned. cbn [combine map fst snd]. rewrite F. f_equal. apply IH; auto.
Qed.

(** *** one pass *)
Definition jumps (fuel : nat) (w : world) (act : nat) : list item -> state -> result := match fuel with O => fun _ _ => OutOfFuel | S f => pass f w act end.
Lemma pass_cons : forall fuel w act i r st, pass fuel w act (i :: r) st =
  match i with
  | IStep n => pass fuel w act r (say (Stepped n) st)
  | ISetup n => pass fuel w act r (match ptr st with Some _ => say (SetUp n) st | None => st end)
  | ICleanup n => pass fuel w act r (mkstate (ptr st) (Some (act, n, r)) (made st) (entries st) (log st))
  | ICase k =>
      let st1 := make k st in
      if named k st1 then
        match body w k [] st1 with
        | (HThrew, st2) => cleaner act (jumps fuel w act) (fun s => Done s true) st2
        | (_, st2) => cleaner act (jumps fuel w act) (pass fuel w act r) (forget st2)
        end
      else pass fuel w act r st1
  | ICases ks =>
      match doors w (match ks with (_, f) :: _ => f | [] => [] end) ks None st with
      | (None, st1) => pass fuel w act r st1
      | (Some (k, vs), st1) =>
          match body w k vs st1 with
          | (HThrew, st2) => cleaner act (jumps fuel w act) (fun s => Done s true) st2
          | (_, st2) => cleaner act (jumps fuel w act) (fun s => pass fuel w act r (forget s)) st2
          end
      end
  end.
Proof. intros [|f]; intros w act [n|n|n|k|ks] r st; reflexivity. Qed.
Lemma pass_nil : forall fuel w act st, pass fuel w act [] st = Done st false.
Proof. intros [|f]; reflexivity. Qed.

Definition some {A} (o : option A) : bool := match o with Some _ => true | None => false end.
(** the hole after items [l] with [r] behind them *)
Fixpoint hole_after (act : nat) (h : option (nat * N * list item)) (l r : list item) : option (nat * N * list item) :=
  match l with [] => h | ICleanup n :: l' => hole_after act (Some (act, n, l' ++ r)) l' r | _ :: l' => hole_after act h l' r end.
Lemma walk : forall fuel w act r l st, (forall k, In k (map fst (declared l)) -> ptr st <> Some k) ->
  pass fuel w act (l ++ r) st =
  pass fuel w act r (mkstate (ptr st) (hole_after act (hole st) l r) (madds (made st) (map fst (declared l))) (entries st) (log st ++ seen (some (ptr st)) l)).
Proof.
  intros fuel w act r l. induction l as [|i l IH]; intros st H.
  - cbn. rewrite app_nil_r. destruct st; reflexivity.
  - cbn [app]. rewrite pass_cons. destruct i as [n|n|n|k|ks]; cbn [declared cases_of flat_map seen app map] in *.
    + rewrite IH; [|auto]. cbn [say ptr hole made entries log]. rewrite <- app_assoc. reflexivity.
    + destruct (ptr st) as [c|] eqn:P; cbn [some].
      * rewrite IH; [|cbn; rewrite P; auto]. unfold say; cbn [ptr hole made entries log]. rewrite P. cbn [some]. rewrite <- app_assoc. reflexivity.
      * rewrite IH; [|rewrite P; auto]. rewrite P. reflexivity.
    + rewrite IH; [|auto]. reflexivity.
    + assert (E : named k (make k st) = false).
      { rewrite make_eq. unfold named. cbn. destruct (ptr st) as [c|] eqn:P; auto. apply N.eqb_neq. intros ->. apply (H k); auto. left; auto. }
      cbn zeta. rewrite E. rewrite make_eq. rewrite IH; [reflexivity|]. cbn [ptr]. intros k1 I. apply H. right. auto.
    + rewrite map_app in H |- *. rewrite doors_closed; [|intros k1 I; apply H; apply in_or_app; auto].
      rewrite IH; [|cbn [ptr]; intros k1 I; apply H; apply in_or_app; auto]. cbn [ptr hole made entries log]. rewrite madds_app. reflexivity.
Qed.
Lemma hole_none : forall act l r h, no_cleanup l -> hole_after act h l r = h.
Proof. intros act l r. induction l as [|[n|n|n|k|ks] l IH]; intros h H; cbn in *; auto. discriminate. Qed.
Lemma hole_app : forall act b r a h, hole_after act h (a ++ b) r = hole_after act (hole_after act h a (b ++ r)) b r.
Proof. intros act b r. induction a as [|[n|n|n|k|ks] a IH]; intros h; cbn; auto. rewrite <- app_assoc. auto. Qed.

(** *** registration *)
Lemma walk_all : forall fuel w act l st, (forall k, In k (map fst (declared l)) -> ptr st <> Some k) ->
  pass fuel w act l st = Done (mkstate (ptr st) (hole_after act (hole st) l []) (madds (made st) (map fst (declared l))) (entries st) (log st ++ seen (some (ptr st)) l)) false.
Proof. intros. rewrite <- (app_nil_r l) at 1. rewrite walk; auto. apply pass_nil. Qed.
Lemma registered : forall fuel w l, distinct l -> exists st, enumerate fuel w l = Done st false /\ made st = map fst (declared l) /\ log st = seen false l.
Proof.
  intros fuel w l D. unfold enumerate. rewrite walk_all; [|cbn; discriminate]. eexists. split; [reflexivity|]. cbn. split; [|reflexivity].
  rewrite madds_new; [reflexivity|]. exact D.
Qed.

Lemma nodup_parts : forall (a b : list N), NoDup (a ++ b) -> NoDup a /\ NoDup b.
Proof.
  induction a as [|x a IH]; intros b H; [split; [constructor|auto]|]. cbn in H. inversion H as [|? ? N1 D1]; subst. apply IH in D1. destruct D1 as [Da Db].
  split; auto. constructor; auto. intros I. apply N1. apply in_or_app. auto.
Qed.
(** the state between tests: everything is registered *)
Definition ready (l : list item) (st : state) : Prop := made st = map fst (declared l).
Lemma in_declared : forall a i c k vs, In (k, vs) (cases_of i) -> In (k, vs) (declared (a ++ i :: c)).
Proof. intros. unfold declared. apply in_flat_map. exists i. split; auto. apply in_or_app. right. left. auto. Qed.
Lemma declared_app : forall a b, declared (a ++ b) = declared a ++ declared b.
Proof. intros. apply flat_map_app. Qed.
Lemma seen_app : forall s a b, seen s (a ++ b) = seen s a ++ seen s b.
Proof. intros. apply flat_map_app. Qed.
Lemma apart : forall a i c k vs, distinct (a ++ i :: c) -> In (k, vs) (cases_of i) -> ~ In k (map fst (declared a)) /\ NoDup (map fst (cases_of i)) /\ ~ In k (map fst (declared c)).
Proof.
  intros a i c k vs D I. unfold distinct in D. rewrite declared_app in D. cbn [declared flat_map] in D. rewrite !map_app in D. fold (declared c) in D.
  assert (K : In k (map fst (cases_of i))) by (apply in_map_iff; exists (k, vs); auto).
  assert (D2 := proj2 (nodup_parts _ _ D)). split; [|split].
  - intros Ia. apply in_split in Ia. destruct Ia as [u [v E]]. rewrite E in D. rewrite <- app_assoc in D. cbn in D. apply NoDup_remove_2 in D. apply D.
    apply in_or_app. right. apply in_or_app. right. apply in_or_app. left. auto.
  - apply nodup_parts in D2. tauto.
  - intros Ic. apply in_split in K. destruct K as [u [v E]]. rewrite E in D2. rewrite <- app_assoc in D2. cbn in D2. apply NoDup_remove_2 in D2. apply D2.
    apply in_or_app. right. apply in_or_app. right. auto.
Qed.
Lemma mads_declared : forall l a x b, l = a ++ x ++ b -> madds (map fst (declared l)) (map fst (declared x)) = map fst (declared l).
Proof.
  intros l a x b ->. apply madds_incl. intros k I. rewrite !declared_app, !map_app. apply in_or_app. right. apply in_or_app. auto.
Qed.

(** the values with which a body runs *)
Definition given (w : world) (i : item) (vs : list value) : list value :=
  match i with ICases ((_, f) :: _) => assigned w f vs | _ => vs end.
Lemma given_same : forall w i k vs, faithful w -> same_types i -> In (k, vs) (cases_of i) -> given w i vs = vs.
Proof.
  intros w [n|n|n|k0|[|[k1 f] ks]] k vs F T I; try reflexivity. cbn [given]. apply assigned_same; auto. cbn in T. destruct I as [E|I]; [inversion E; auto|apply (T (k, vs) I)].
Qed.

Definition after (l : list item) (ev : list event) (st st' : state) : Prop := ready l st' /\ log st' = ev.

(** up to the body *)
Lemma reach : forall fuel w act a i c k vs st, distinct (a ++ i :: c) -> ready (a ++ i :: c) st -> In (k, vs) (cases_of i) ->
  test fuel w act (a ++ i :: c) k st =
  (let h := ending w k (entries st) in
   let st2 := mkstate (Some k) (hole_after act (hole st) a (i :: c)) (made st) (S (entries st)) (seen true a ++ [Ran k (given w i vs) h]) in
   match h with
   | HThrew => cleaner act (jumps fuel w act) (fun s => Done s true) st2
   | _ => match i with
          | ICase _ => cleaner act (jumps fuel w act) (pass fuel w act c) (forget st2)
          | _ => cleaner act (jumps fuel w act) (fun s => pass fuel w act c (forget s)) st2
          end
   end).
Proof.
  intros fuel w act a i c k vs st D R I. destruct (apart _ _ _ _ _ D I) as [Na [Di Nc]]. unfold test.
  rewrite walk; [|cbn [ptr]; intros k1 I1 E; inversion E; subst; auto]. cbn [ptr hole made entries log some app].
  rewrite pass_cons. unfold ready in R. rewrite R.
  rewrite (mads_declared (a ++ i :: c) [] a (i :: c)) by reflexivity.
  assert (M : madds (map fst (declared (a ++ i :: c))) (map fst (cases_of i)) = map fst (declared (a ++ i :: c))).
  { assert (E : cases_of i = declared [i]) by (cbn; rewrite app_nil_r; auto). rewrite E. apply (mads_declared _ a [i] c). reflexivity. }
  destruct i as [n|n|n|k0|ks]; cbn [cases_of] in I, Di, M; try (destruct I).
  - inversion H; subst k0 vs. cbn zeta. rewrite make_eq. unfold named. cbn [ptr hole made entries log]. rewrite N.eqb_refl. unfold body. cbn [ptr hole made entries log given].
    cbn in M. rewrite M. destruct (ending w k (entries st)); reflexivity.
  - destruct H.
  - rewrite (doors_open _ _ ks None _ k vs Di I) by reflexivity. cbn [ptr hole made entries log]. rewrite M. unfold body. cbn [ptr hole made entries log].
    destruct ks as [|[k1 f] ks]; [destruct I|]. cbn [given]. destruct (ending w k (entries st)); reflexivity.
Qed.
