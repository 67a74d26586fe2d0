From Coq Require Import List ZArith NArith Bool Arith Lia Permutation Sorted.
From Verif Require Import ListModel ListSpec.
Import ListNotations.

Lemma links_fst : forall l x y, map fst (links x l y) = x :: l.
Proof. induction l; simpl; intros; auto. rewrite IHl. auto. Qed.
Lemma links_snd : forall l x y, map snd (links x l y) = l ++ [y].
Proof. induction l; simpl; intros; auto. rewrite IHl. auto. Qed.
Lemma links_app : forall l1 x z l2 y, links x (l1 ++ z :: l2) y = links x l1 z ++ links z l2 y.
Proof. induction l1; simpl; intros; auto. rewrite IHl1. auto. Qed.
Lemma last_cons : forall (l : list nat) z x, last (z :: l) x = last l z.
Proof.
  induction l as [|a l IH]; intros; auto. change (last (z :: a :: l) x) with (last (a :: l) x).
  rewrite !IH. reflexivity.
Qed.
Lemma links_last : forall l x, exists pre, forall y, links x l y = pre ++ [(last l x, y)].
Proof.
  induction l as [|z l IH]; intros x.
  - exists []. auto.
  - destruct (IH z) as (pre & E). exists ((x, z) :: pre). intro y. cbn [links]. rewrite E.
    rewrite last_cons. reflexivity.
Qed.

(** where a node enters or leaves a ring *)
Lemma ring_split : forall h l1 l2, exists pre post,
  links h (l1 ++ l2) h = pre ++ (last l1 h, hd h l2) :: post /\
  (forall e, links h (l1 ++ e :: l2) h = pre ++ (last l1 h, e) :: (e, hd h l2) :: post).
Proof.
  intros h l1 l2. destruct (links_last l1 h) as (pre & E). destruct l2 as [|n l2].
  - exists pre, []. rewrite app_nil_r. split; auto. intro e. rewrite links_app, E, <- app_assoc. auto.
  - exists pre, (links n l2 h). split.
    + rewrite links_app, E, <- app_assoc. auto.
    + intro e. rewrite links_app, E, <- app_assoc. auto.
Qed.

Definition frame (H H' : heap) (nodes : list nat) : Prop :=
  forall x, ~ In x nodes -> nx H' x = nx H x /\ pv H' x = pv H x.

Lemma frame_others : forall H H' nodes, frame H H' nodes -> others_untouched H H' nodes.
Proof.
  intros H H' nodes F h l D [N L]. split; auto.
  rewrite Forall_forall in *. intros [a b] Hin. specialize (L _ Hin). simpl in *.
  assert (In a (h :: l)). { rewrite <- (links_fst l h h). apply in_map_iff. exists (a, b). auto. }
  assert (In b (h :: l)).
  { assert (In b (l ++ [h])). { rewrite <- (links_snd l h h). apply in_map_iff. exists (a, b). auto. }
    apply in_app_or in H1. destruct H1 as [|[|[]]]; [right|left]; auto. }
  destruct (F a) as [-> _]; [apply D; auto|]. destruct (F b) as [_ ->]; [apply D; auto|]. auto.
Qed.

Lemma frame_weaken : forall H H' a b, frame H H' a -> incl a b -> frame H H' b.
Proof. intros H H' a b F I x Hx. apply F. intro. apply Hx. apply I. auto. Qed.

Lemma frame_trans : forall H H' H'' a, frame H H' a -> frame H' H'' a -> frame H H'' a.
Proof. intros H H' H'' a F1 F2 x Hx. destruct (F1 x Hx). destruct (F2 x Hx). split; congruence. Qed.

Lemma upd_same : forall f a v, upd f a v a = v.
Proof. intros. unfold upd. rewrite Nat.eqb_refl. auto. Qed.
Lemma upd_other : forall f a v x, x <> a -> upd f a v x = f x.
Proof. intros. unfold upd. apply Nat.eqb_neq in H. rewrite H. auto. Qed.

Lemma nx_add_between : forall H e p n x, nx (add_between H e p n) x =
  if Nat.eqb x p then e else if Nat.eqb x e then n else nx H x.
Proof. reflexivity. Qed.
Lemma pv_add_between : forall H e p n x, pv (add_between H e p n) x =
  if Nat.eqb x e then p else if Nat.eqb x n then e else pv H x.
Proof. reflexivity. Qed.

Lemma NoDup_links : forall h l, NoDup (h :: l) -> NoDup (map fst (links h l h)) /\ NoDup (map snd (links h l h)).
Proof.
  intros. rewrite links_fst, links_snd. split; auto.
  apply (Permutation_NoDup (l := h :: l)); auto. apply Permutation_cons_append.
Qed.

Lemma last_In : forall (l : list nat) h, In (last l h) (h :: l).
Proof.
  induction l as [|a l IH]; intro h; simpl; auto. destruct l; auto. 
  specialize (IH h). simpl in *. tauto.
Qed.
Lemma hd_In : forall (l : list nat) h, In (hd h l) (h :: l).
Proof. destruct l; simpl; auto. Qed.

Ltac nodup_split H := apply NoDup_remove in H; destruct H as [H ?].

Lemma insert_holds : forall H h l1 l2 e, holds H h (l1 ++ l2) -> ~ In e (h :: l1 ++ l2) ->
  let H' := add_between H e (last l1 h) (hd h l2) in
  holds H' h (l1 ++ e :: l2) /\ frame H H' (e :: h :: l1 ++ l2).
Proof.
  intros H h l1 l2 e [N L] He H'.
  assert (Hp : In (last l1 h) (h :: l1 ++ l2)).
  { pose proof (last_In l1 h) as [E|E]; [left; auto|right; apply in_or_app; auto]. }
  assert (Hn : In (hd h l2) (h :: l1 ++ l2)).
  { pose proof (hd_In l2 h) as [E|E]; [left; auto|right; apply in_or_app; auto]. }
  split.
  - destruct (ring_split h l1 l2) as (pre & post & E1 & E2).
    destruct (NoDup_links _ _ N) as [N1 N2]. split.
    + inversion N; subst. constructor.
      * intro Hi. apply in_app_or in Hi. destruct Hi as [Hi|[<-|Hi]].
        -- apply H2. apply in_or_app. auto.
        -- apply He. left. auto.
        -- apply H2. apply in_or_app. auto.
      * apply (Permutation_NoDup (l := e :: l1 ++ l2)); [apply Permutation_middle|].
        constructor; auto. intro. apply He. right. auto.
    + rewrite E2. rewrite E1 in L, N1, N2.
      assert (Fs : forall x, In x (map fst (links h (l1 ++ l2) h)) -> x <> e).
      { intros x Hx ->. rewrite links_fst in Hx. auto. }
      assert (Ss : forall x, In x (map snd (links h (l1 ++ l2) h)) -> x <> e).
      { intros x Hx ->. rewrite links_snd in Hx. apply He. apply in_app_or in Hx.
        destruct Hx as [Hx|[Hx|[]]]; [right|left]; auto. }
      rewrite E1 in Fs, Ss.
      rewrite map_app in N1, N2, Fs, Ss. simpl in N1, N2, Fs, Ss.
      apply NoDup_remove_2 in N1. apply NoDup_remove_2 in N2.
      apply Forall_app in L. destruct L as [L1 L2]. inversion L2 as [|? ? L3 L4]; subst.
      assert (K : forall pp, (forall x, In x (map fst pp) -> x <> last l1 h /\ x <> e) ->
                    (forall x, In x (map snd pp) -> x <> hd h l2 /\ x <> e) ->
                    Forall (fun e => nx H (fst e) = snd e /\ pv H (snd e) = fst e) pp ->
                    Forall (fun e => nx H' (fst e) = snd e /\ pv H' (snd e) = fst e) pp).
      { intros pp P1 P2 P3. rewrite Forall_forall in *. intros [a b] Hab. specialize (P3 _ Hab). cbn [fst snd] in *.
        destruct (P1 a) as [A1 A2]; [apply in_map_iff; exists (a, b); auto|].
        destruct (P2 b) as [B1 B2]; [apply in_map_iff; exists (a, b); auto|].
        unfold H'. rewrite nx_add_between, pv_add_between.
        apply Nat.eqb_neq in A1, A2, B1, B2. rewrite A1, A2, B1, B2. auto. }
      apply Forall_app. split; [|constructor; [|constructor]].
      * apply K; auto.
        -- intros x Hx. split.
           ++ intros ->. apply N1. apply in_or_app. auto.
           ++ apply Fs. apply in_or_app. auto.
        -- intros x Hx. split.
           ++ intros ->. apply N2. apply in_or_app. auto.
           ++ apply Ss. apply in_or_app. auto.
      * cbn [fst snd]. unfold H'. rewrite nx_add_between, pv_add_between, !Nat.eqb_refl. auto.
      * cbn [fst snd]. unfold H'. rewrite nx_add_between, pv_add_between, !Nat.eqb_refl.
        assert (A : e <> last l1 h) by (intros ->; auto). apply Nat.eqb_neq in A. rewrite A.
        assert (B : hd h l2 <> e) by (intros <-; auto). apply Nat.eqb_neq in B. rewrite B. auto.
      * apply K; auto.
        -- intros x Hx. split.
           ++ intros ->. apply N1. apply in_or_app. auto.
           ++ apply Fs. apply in_or_app. right. right. auto.
        -- intros x Hx. split.
           ++ intros ->. apply N2. apply in_or_app. auto.
           ++ apply Ss. apply in_or_app. right. right. auto.
  - intros x Hx. unfold H'. rewrite nx_add_between, pv_add_between.
    assert (x <> e) by (intros ->; apply Hx; left; auto).
    assert (x <> last l1 h) by (intros ->; apply Hx; right; auto).
    assert (x <> hd h l2) by (intros ->; apply Hx; right; auto).
    apply Nat.eqb_neq in H0, H1, H2. rewrite H0, H1, H2. auto.
Qed.

Lemma holds_next : forall H h l1 x l2, holds H h (l1 ++ x :: l2) -> nx H x = hd h l2 /\ pv H x = last l1 h.
Proof.
  intros H h l1 x l2 [N L]. destruct (ring_split h l1 l2) as (pre & post & E1 & E2).
  rewrite E2 in L. apply Forall_app in L. destruct L as [_ L]. inversion L as [|? ? [A1 A2] L']; subst.
  inversion L' as [|? ? [B1 B2] _]; subst. simpl in *. auto.
Qed.

Lemma holds_head : forall H h l, holds H h l -> nx H h = hd h l /\ pv H h = last l h.
Proof.
  intros H h l [N L]. split.
  - destruct l; simpl in L; inversion L as [|? ? [A1 A2] L']; subst; auto.
  - destruct (links_last l h) as (pre & E). rewrite E in L. apply Forall_app in L. destruct L as [_ L].
    inversion L as [|? ? [A1 A2] L']; subst; auto.
Qed.

Lemma push_correct : forall H h l e, holds H h l -> ~ In e (h :: l) ->
  holds (push H h e) h (e :: l) /\ frame H (push H h e) (e :: h :: l).
Proof.
  intros H h l e W He. unfold push, add_after. destruct (holds_head _ _ _ W) as [-> _].
  exact (insert_holds H h [] l e W He).
Qed.

Lemma push_back_correct : forall H h l e, holds H h l -> ~ In e (h :: l) ->
  holds (push_back H h e) h (l ++ [e]) /\ frame H (push_back H h e) (e :: h :: l).
Proof.
  intros H h l e W He. unfold push_back, add_before. destruct (holds_head _ _ _ W) as [_ ->].
  pose proof (insert_holds H h l [] e) as P. rewrite app_nil_r in P. exact (P W He).
Qed.

Lemma add_before_correct : forall H h l1 x l2 e, holds H h (l1 ++ x :: l2) -> ~ In e (h :: l1 ++ x :: l2) ->
  holds (add_before H x e) h (l1 ++ e :: x :: l2) /\ frame H (add_before H x e) (e :: h :: l1 ++ x :: l2).
Proof.
  intros H h l1 x l2 e W He. unfold add_before. destruct (holds_next _ _ _ _ _ W) as [_ ->].
  exact (insert_holds H h l1 (x :: l2) e W He).
Qed.

Lemma add_after_correct : forall H h l1 x l2 e, holds H h (l1 ++ x :: l2) -> ~ In e (h :: l1 ++ x :: l2) ->
  holds (add_after H x e) h (l1 ++ x :: e :: l2) /\ frame H (add_after H x e) (e :: h :: l1 ++ x :: l2).
Proof.
  intros H h l1 x l2 e W He. unfold add_after. destruct (holds_next _ _ _ _ _ W) as [-> _].
  pose proof (insert_holds H h (l1 ++ [x]) l2 e) as P. rewrite <- app_assoc in P.
  replace (last (l1 ++ [x]) h) with x in P by (symmetry; apply last_last).
  rewrite <- app_assoc in P. exact (P W He).
Qed.

Lemma out_correct : forall H h l1 e l2, holds H h (l1 ++ e :: l2) ->
  holds (out H e) h (l1 ++ l2) /\ holds (out H e) e [] /\ frame H (out H e) (h :: l1 ++ e :: l2).
Proof.
  intros H h l1 e l2 W. destruct (holds_next _ _ _ _ _ W) as [En Ep]. destruct W as [N L].
  assert (Hp : In (last l1 h) (h :: l1)) by apply last_In.
  assert (Hn : In (hd h l2) (h :: l2)) by apply hd_In.
  assert (N' : NoDup (h :: l1 ++ l2)).
  { change (h :: l1 ++ l2) with ((h :: l1) ++ l2). change (h :: l1 ++ e :: l2) with ((h :: l1) ++ e :: l2) in N.
    apply NoDup_remove_1 in N. auto. }
  assert (He : ~ In e (h :: l1 ++ l2)).
  { change (h :: l1 ++ e :: l2) with ((h :: l1) ++ e :: l2) in N. apply NoDup_remove_2 in N. auto. }
  assert (Hp' : last l1 h <> e).
  { intro E. apply He. rewrite <- E. destruct Hp; [left; auto|right; apply in_or_app; auto]. }
  assert (Hn' : hd h l2 <> e).
  { intro E. apply He. rewrite <- E. destruct Hn; [left; auto|right; apply in_or_app; auto]. }
  assert (Nx : forall x, nx (out H e) x = if Nat.eqb x e then e else if Nat.eqb x (last l1 h) then hd h l2 else nx H x).
  { intro x. unfold out, set_nx, set_pv, upd. cbn [nx pv]. rewrite En, Ep.
    destruct (Nat.eqb_spec x e); auto. }
  assert (Pv : forall x, pv (out H e) x = if Nat.eqb x e then e else if Nat.eqb x (hd h l2) then last l1 h else pv H x).
  { intro x. unfold out, set_nx, set_pv, upd. cbn [nx pv]. rewrite En, Ep.
    destruct (Nat.eqb_spec x e); auto.
    assert (A : e <> last l1 h) by auto. apply Nat.eqb_neq in A. rewrite A. reflexivity. }
  split; [|split].
  - split; auto. destruct (ring_split h l1 l2) as (pre & post & E1 & E2). rewrite E1.
    rewrite E2 in L. apply Forall_app in L. destruct L as [L1 L2]. inversion L2 as [|? ? L3 L4]; subst.
    inversion L4 as [|? ? L5 L6]; subst.
    destruct (NoDup_links _ _ N') as [N1 N2]. 
    assert (Fs : forall x, In x (map fst (links h (l1 ++ l2) h)) -> x <> e).
    { intros x Hx ->. rewrite links_fst in Hx. auto. }
    assert (Ss : forall x, In x (map snd (links h (l1 ++ l2) h)) -> x <> e).
    { intros x Hx ->. rewrite links_snd in Hx. apply He. apply in_app_or in Hx.
      destruct Hx as [Hx|[Hx|[]]]; [right|left]; auto. }
    rewrite E1 in N1, N2, Fs, Ss.
    rewrite map_app in N1, N2, Fs, Ss. simpl in N1, N2, Fs, Ss.
    apply NoDup_remove_2 in N1. apply NoDup_remove_2 in N2.
    assert (K : forall pp, (forall x, In x (map fst pp) -> x <> last l1 h /\ x <> e) ->
                  (forall x, In x (map snd pp) -> x <> hd h l2 /\ x <> e) ->
                  Forall (fun e => nx H (fst e) = snd e /\ pv H (snd e) = fst e) pp ->
                  Forall (fun p => nx (out H e) (fst p) = snd p /\ pv (out H e) (snd p) = fst p) pp).
    { intros pp P1 P2 P3. rewrite Forall_forall in *. intros [a b] Hab. specialize (P3 _ Hab). cbn [fst snd] in *.
      destruct (P1 a) as [A1 A2]; [apply in_map_iff; exists (a, b); auto|].
      destruct (P2 b) as [B1 B2]; [apply in_map_iff; exists (a, b); auto|].
      rewrite Nx, Pv. apply Nat.eqb_neq in A1, A2, B1, B2. rewrite A1, A2, B1, B2. auto. }
    apply Forall_app. split; [|constructor].
    + apply K; auto.
      * intros x Hx. split; [intros ->; apply N1; apply in_or_app; auto|apply Fs, in_or_app; auto].
      * intros x Hx. split; [intros ->; apply N2; apply in_or_app; auto|apply Ss, in_or_app; auto].
    + cbn [fst snd]. rewrite Nx, Pv, !Nat.eqb_refl. apply Nat.eqb_neq in Hp', Hn'. rewrite Hp', Hn'. auto.
    + apply K; auto.
      * intros x Hx. split; [intros ->; apply N1; apply in_or_app; auto|apply Fs, in_or_app; right; right; auto].
      * intros x Hx. split; [intros ->; apply N2; apply in_or_app; auto|apply Ss, in_or_app; right; right; auto].
  - split; [constructor; [intros []|constructor]|]. cbn [links]. constructor; [|constructor]. cbn [fst snd].
    rewrite Nx, Pv, Nat.eqb_refl. auto.
  - intros x Hx. rewrite Nx, Pv.
    assert (x <> e) by (intros ->; apply Hx; right; apply in_or_app; right; left; auto).
    assert (x <> last l1 h).
    { intros ->. apply Hx. destruct Hp as [A|A]; [left; auto|right; apply in_or_app; auto]. }
    assert (x <> hd h l2).
    { intros ->. apply Hx. destruct Hn as [A|A]; [left; auto|right; apply in_or_app; right; right; auto]. }
    apply Nat.eqb_neq in H0, H1, H2. rewrite H0, H1, H2. auto.
Qed.

Lemma pop_correct : forall H h x l, holds H h (x :: l) ->
  snd (pop H h) = x /\ holds (fst (pop H h)) h l /\ holds (fst (pop H h)) x [] /\ frame H (fst (pop H h)) (h :: x :: l).
Proof.
  intros H h x l W. destruct (holds_head _ _ _ W) as [E _]. unfold pop. simpl. rewrite E. simpl.
  split; auto. exact (out_correct H h [] x l W).
Qed.

Lemma pop_back_correct : forall H h x l, holds H h (l ++ [x]) ->
  snd (pop_back H h) = x /\ holds (fst (pop_back H h)) h l /\ holds (fst (pop_back H h)) x []
  /\ frame H (fst (pop_back H h)) (h :: l ++ [x]).
Proof.
  intros H h x l W. destruct (holds_head _ _ _ W) as [_ E]. rewrite last_last in E. unfold pop_back. simpl. rewrite E.
  split; auto. pose proof (out_correct H h l x [] W) as P. rewrite app_nil_r in P. auto.
Qed.

Lemma init_correct : forall H a, holds (list_init H a) a [] /\ frame H (list_init H a) [a].
Proof.
  intros. split.
  - split; [constructor; [intros []|constructor]|]. simpl. constructor; [|constructor]. simpl.
    unfold upd. rewrite Nat.eqb_refl. auto.
  - intros x Hx. simpl. rewrite !upd_other; auto; intros ->; apply Hx; left; auto.
Qed.

(** traversal *)
Lemma walk_holds : forall l1 l2 fuel H h, holds H h (l1 ++ l2) -> length l2 < fuel ->
  walk fuel H h (hd h l2) = Some l2.
Proof.
  intros l1 l2. revert l1. induction l2 as [|x l2 IH]; intros l1 fuel H h W Hf; (destruct fuel; [simpl in Hf; lia|]).
  - simpl. rewrite Nat.eqb_refl. auto.
  - cbn [walk hd]. assert (x <> h).
    { destruct W as [N _]. inversion N; subst. intros ->. apply H2. apply in_or_app. right. left. auto. }
    apply Nat.eqb_neq in H0. rewrite H0. destruct (holds_next _ _ _ _ _ W) as [-> _].
    rewrite (IH (l1 ++ [x])); auto.
    + rewrite <- app_assoc. auto.
    + simpl in Hf. lia.
Qed.

Lemma walk_back_holds : forall l1 l2 fuel H h, holds H h (l1 ++ l2) -> length l1 < fuel ->
  walk_back fuel H h (last l1 h) = Some (rev l1).
Proof.
  intros l1. induction l1 as [|x l1 IH] using rev_ind; intros l2 fuel H h W Hf; (destruct fuel; [simpl in Hf; lia|]).
  - simpl. rewrite Nat.eqb_refl. auto.
  - rewrite last_last, rev_app_distr. cbn [walk_back rev app]. assert (x <> h).
    { destruct W as [N _]. inversion N; subst. intros ->. apply H2. apply in_or_app. left. apply in_or_app. right. left. auto. }
    apply Nat.eqb_neq in H0. rewrite H0. rewrite <- app_assoc in W. destruct (holds_next _ _ _ _ _ W) as [_ ->].
    rewrite (IH ([x] ++ l2)); auto. rewrite app_length in Hf. simpl in Hf. lia.
Qed.

Lemma traverse_correct : forall H h l fuel, holds H h l -> length l < fuel ->
  traverse fuel H h = Some l /\ traverse_back fuel H h = Some (rev l) /\ count fuel H h = Some (length l).
Proof.
  intros H h l fuel W Hf. unfold count, traverse, traverse_back.
  destruct (holds_head _ _ _ W) as [-> ->]. rewrite (walk_holds [] l) by auto. split; auto. split; auto.
  apply (walk_back_holds l []); auto. rewrite app_nil_r. auto.
Qed.

Lemma empty_correct : forall H h l, holds H h l -> (empty H h = true <-> l = []).
Proof.
  intros H h l W. unfold empty. destruct (holds_head _ _ _ W) as [-> _]. rewrite Nat.eqb_eq.
  destruct l as [|x l]; simpl; split; auto; try discriminate.
  intros ->. destruct W as [N _]. inversion N; subst. exfalso. apply H2. left. auto.
Qed.

Lemma empty_nil : forall H h, holds H h [] -> empty H h = true.
Proof. intros. apply (empty_correct _ _ []); auto. Qed.
Lemma empty_cons : forall H h x l, holds H h (x :: l) -> empty H h = false.
Proof.
  intros. destruct (empty H h) eqn:E; auto. apply (empty_correct _ _ _ H0) in E. discriminate.
Qed.

(** removal while iterating *)
Lemma for_each_correct : forall drop l2 l1 fuel H h, holds H h (l1 ++ l2) -> length l2 < fuel ->
  exists H', for_each fuel drop H h (hd h l2) (nx H (hd h l2)) = Some (H', l2) /\
             holds H' h (l1 ++ filter (fun x => negb (drop x)) l2) /\
             (forall x, In x l2 -> drop x = true -> holds H' x []) /\ frame H H' (h :: l1 ++ l2).
Proof.
  intros drop l2. induction l2 as [|x l2 IH]; intros l1 fuel H h W Hf; (destruct fuel; [simpl in Hf; lia|]).
  - exists H. cbn [for_each hd]. rewrite Nat.eqb_refl. split; auto. split; [rewrite app_nil_r in *; auto|]. split; [intros x []|].
    intros x _. auto.
  - cbn [for_each hd]. assert (Hxh : x <> h).
    { destruct W as [N _]. inversion N; subst. intros ->. apply H2. apply in_or_app. right. left. auto. }
    assert (Hxh' := Hxh). apply Nat.eqb_neq in Hxh'. rewrite Hxh'.
    destruct (holds_next _ _ _ _ _ W) as [En _]. rewrite En.
    destruct (drop x) eqn:Dx.
    + destruct (out_correct _ _ _ _ _ W) as (W1 & W2 & F1).
      destruct (IH l1 fuel (out H x) h W1) as (H' & E & W' & D' & F'); [simpl in Hf; lia|].
      rewrite E. exists H'. cbn [filter]. rewrite Dx. cbn [negb].
      assert (Nx : ~ In x (h :: l1 ++ l2)).
      { destruct W as [N _]. change (h :: l1 ++ x :: l2) with ((h :: l1) ++ x :: l2) in N.
        apply NoDup_remove_2 in N. exact N. }
      split; auto. split; auto. split.
      * intros y [->|Hy] Dy.
        -- apply (frame_others _ _ _ F'); auto. intros z [<-|[]]. auto.
        -- apply D'; auto.
      * eapply frame_trans; [exact F1|]. eapply frame_weaken; [exact F'|].
        intros y [->|Hy]; [left; auto|right]. apply in_app_or in Hy. apply in_or_app.
        destruct Hy; auto. right. right. auto.
    + destruct (IH (l1 ++ [x]) fuel H h) as (H' & E & W' & D' & F'); [rewrite <- app_assoc; auto|simpl in Hf; lia|].
      rewrite E. exists H'. cbn [filter]. rewrite Dx. cbn [negb]. rewrite <- app_assoc in W', F'.
      split; auto. split; auto. split; auto.
      intros y [->|Hy] Dy; [congruence|]. apply D'; auto.
Qed.

Lemma for_each_entry_correct : forall drop l fuel H h, holds H h l -> length l < fuel ->
  exists H', for_each_entry fuel drop H h = Some (H', l) /\
             holds H' h (filter (fun x => negb (drop x)) l) /\
             (forall x, In x l -> drop x = true -> holds H' x []) /\ frame H H' (h :: l).
Proof.
  intros drop l fuel H h W Hf. unfold for_each_entry. destruct (holds_head _ _ _ W) as [-> _].
  exact (for_each_correct drop l [] fuel H h W Hf).
Qed.

(** * Sorting *)
Section SortProofs.
  Variable cmp : nat -> nat -> Z.

  (** abstract insertion used as the bridge between heap and sequences *)
  Fixpoint insert (p : nat) (m : list nat) : list nat :=
    match m with
    | [] => [p]
    | q :: m' => if (0 <? cmp q p)%Z then p :: q :: m' else q :: insert p m'
    end.
  Definition isort (l m : list nat) : list nat := fold_left (fun m p => insert p m) l m.

  Lemma insert_perm : forall p m, Permutation (p :: m) (insert p m).
  Proof.
    induction m as [|q m IH]; simpl; auto. destruct (0 <? cmp q p)%Z; auto.
    eapply Permutation_trans; [apply perm_swap|]. constructor. auto.
  Qed.

  Lemma isort_perm : forall l m, Permutation (l ++ m) (isort l m).
  Proof.
    induction l as [|p l IH]; simpl; intros; auto.
    eapply Permutation_trans; [|apply IH]. 
    eapply Permutation_trans; [apply Permutation_middle|]. apply Permutation_app_head. apply insert_perm.
  Qed.

  Lemma scan_insert : forall m2 m1 fuel H s p, holds H s (m1 ++ m2) -> length m2 < fuel ->
    exists q, scan cmp fuel H s p (hd s m2) = Some q /\
      exists a b, m2 = a ++ b /\ q = hd s b /\ insert p m2 = a ++ p :: b.
  Proof.
    induction m2 as [|x m2 IH]; intros m1 fuel H s p W Hf; (destruct fuel; [simpl in Hf; lia|]).
    - cbn [scan hd]. rewrite Nat.eqb_refl. exists s. split; auto. exists [], []. auto.
    - cbn [scan hd]. assert (Hx : x <> s).
      { destruct W as [N _]. inversion N; subst. intros ->. apply H2. apply in_or_app. right. left. auto. }
      apply Nat.eqb_neq in Hx. rewrite Hx. destruct (0 <? cmp x p)%Z eqn:E.
      + exists x. split; auto. exists [], (x :: m2). simpl. rewrite E. auto.
      + destruct (holds_next _ _ _ _ _ W) as [-> _].
        destruct (IH (m1 ++ [x]) fuel H s p) as (q & E1 & a & b & E2 & E3 & E4).
        * rewrite <- app_assoc. auto.
        * simpl in Hf. lia.
        * exists q. split; auto. exists (x :: a), b. simpl. rewrite E, E4. subst. auto.
  Qed.

  Lemma add_before_at : forall H s a b e, holds H s (a ++ b) -> ~ In e (s :: a ++ b) ->
    holds (add_before H (hd s b) e) s (a ++ e :: b) /\ frame H (add_before H (hd s b) e) (e :: s :: a ++ b).
  Proof.
    intros H s a b e W He. destruct b as [|x b].
    - simpl. rewrite app_nil_r in *. apply push_back_correct; auto.
    - simpl. apply add_before_correct; auto.
  Qed.

  Definition disj (a b : list nat) := forall x, In x a -> In x b -> False.

  Lemma sort_insert_correct : forall l m budget fuel H h s, holds H h l -> holds H s m -> disj (h :: l) (s :: m) ->
    length l < fuel -> length l + length m < budget ->
    exists H', sort_insert cmp budget fuel H h s = Some H' /\ holds H' h [] /\ holds H' s (isort l m) /\
               frame H H' (h :: l ++ s :: m).
  Proof.
    induction l as [|x l IH]; intros m budget fuel H h s Wh Ws D Hf Hb; (destruct fuel; [simpl in Hf; lia|]).
    - cbn [sort_insert]. rewrite (empty_nil _ _ Wh). exists H. repeat split; try apply Wh; try apply Ws.
    - cbn [sort_insert]. rewrite (empty_cons _ _ _ _ Wh).
      destruct (pop_correct _ _ _ _ Wh) as (E1 & W1 & W2 & F1).
      destruct (pop H h) as [H1 p]. simpl in E1, W1, W2, F1. subst p.
      assert (Ws1 : holds H1 s m).
      { apply (frame_others _ _ _ F1); [intros y Hy Hy'; apply (D y); auto|auto]. }
      destruct (holds_head _ _ _ Ws1) as [-> _].
      destruct (scan_insert m [] budget H1 s x Ws1) as (q & E2 & a & b & E3 & E4 & E5).
      { simpl in Hb. lia. }
      rewrite E2. subst q m.
      assert (Hx : ~ In x (s :: a ++ b)).
      { intro Hx. apply (D x); auto. right. left. auto. }
      destruct (add_before_at H1 s a b x Ws1 Hx) as [W3 F2].
      set (H2 := add_before H1 (hd s b) x) in *.
      assert (Nh : ~ In h (x :: s :: a ++ b)).
      { intros [<-|Hi]; [destruct Wh as [N _]; inversion N; apply H4; left; auto|]. apply (D h); auto. left. auto. }
      assert (W4 : holds H2 h l).
      { apply (frame_others _ _ _ F2); auto. intros y Hy [<-|Hy'].
        - destruct Wh as [N _]. inversion N; subst. inversion H5; subst. destruct Hy as [<-|Hy]; [apply H4; left; auto|auto].
        - destruct Hy as [<-|Hy]; [apply (D h); [left|]; auto|]. apply (D y); auto. right. right. auto. }
      destruct (IH (a ++ x :: b) budget fuel H2 h s W4 W3) as (H' & E6 & W5 & W6 & F3).
      + intros y Hy Hy'. destruct Hy' as [<-|Hy'].
        * apply (D s); [|left; auto]. destruct Hy; [left; auto|right; right; auto].
        * apply in_app_or in Hy'.
          assert (Hy2 : In y (s :: a ++ b) \/ y = x).
          { destruct Hy' as [?|[?|?]]; auto; left; right; apply in_or_app; auto. }
          destruct Hy2 as [Hy2| ->].
          -- apply (D y); auto. destruct Hy; [left; auto|right; right; auto].
          -- destruct Hy as [<-|Hy]; [apply Nh; left; auto|].
             destruct Wh as [N _]. inversion N; subst. inversion H5; subst. auto.
      + simpl in Hf. lia.
      + rewrite app_length in *. simpl in *. lia.
      + exists H'. split; auto. split; auto. split.
        * unfold isort in *. simpl. rewrite E5. auto.
        * intros y Hy.
          destruct (F1 y) as [A1 A2]. { intro Hi. apply Hy. destruct Hi as [->|[->|Hi]]; [left; auto|right; left; auto|].
             right. right. apply in_or_app. auto. }
          destruct (F2 y) as [B1 B2]. { intro Hi. apply Hy. destruct Hi as [->|Hi]; [right; left; auto|].
             right. right. apply in_or_app. auto. }
          destruct (F3 y) as [C1 C2]. { intro Hi. apply Hy. destruct Hi as [->|Hi]; [left; auto|].
             apply in_app_or in Hi. right. destruct Hi as [Hi|[->|Hi]].
             - right. apply in_or_app. auto.
             - right. apply in_or_app. right. left. auto.
             - apply in_app_or in Hi. destruct Hi as [Hi|[->|Hi]].
               + right. apply in_or_app. right. right. apply in_or_app. auto.
               + left. auto.
               + right. apply in_or_app. right. right. apply in_or_app. auto. }
          split; congruence.
  Qed.

  Lemma sort_move_correct : forall m l fuel H h s, holds H h l -> holds H s m -> disj (h :: l) (s :: m) ->
    length m < fuel ->
    exists H', sort_move fuel H h s = Some H' /\ holds H' h (l ++ m) /\ holds H' s [] /\ frame H H' (h :: l ++ s :: m).
  Proof.
    induction m as [|x m IH]; intros l fuel H h s Wh Ws D Hf; (destruct fuel; [simpl in Hf; lia|]).
    - cbn [sort_move]. rewrite (empty_nil _ _ Ws). exists H. rewrite app_nil_r. repeat split; try apply Wh; try apply Ws.
    - cbn [sort_move]. rewrite (empty_cons _ _ _ _ Ws).
      destruct (pop_correct _ _ _ _ Ws) as (E1 & W1 & W2 & F1).
      destruct (pop H s) as [H1 p]. simpl in E1, W1, W2, F1. subst p.
      assert (Wh1 : holds H1 h l).
      { apply (frame_others _ _ _ F1); [intros y Hy Hy'; apply (D y); auto|auto]. }
      assert (Hx : ~ In x (h :: l)).
      { intro Hx. apply (D x); auto. right. left. auto. }
      destruct (push_back_correct H1 h l x Wh1 Hx) as [W3 F2].
      set (H2 := push_back H1 h x) in *.
      assert (Nxm : ~ In x (s :: m)).
      { destruct Ws as [N _]. inversion N; subst. inversion H5; subst. intros [->|Hi]; [apply H4; left; auto|auto]. }
      assert (W4 : holds H2 s m).
      { apply (frame_others _ _ _ F2); auto. intros y Hy [<-|Hy']; [auto|].
        apply (D y); auto. destruct Hy; [left; auto|right; right; auto]. }
      destruct (IH (l ++ [x]) fuel H2 h s W3 W4) as (H' & E6 & W5 & W6 & F3).
      + intros y Hy Hy'. destruct Hy as [<-|Hy].
        * apply (D h); [left; auto|]. destruct Hy'; [left; auto|right; right; auto].
        * apply in_app_or in Hy. destruct Hy as [Hy|[<-|[]]]; [|auto].
          apply (D y); [right; auto|]. destruct Hy'; [left; auto|right; right; auto].
      + simpl in Hf. lia.
      + exists H'. rewrite <- app_assoc in *. split; auto. split; auto. split; auto.
        intros y Hy.
        destruct (F1 y) as [A1 A2]. { intro Hi. apply Hy. right. apply in_or_app. right. auto. }
        destruct (F2 y) as [B1 B2]. { intro Hi. apply Hy. destruct Hi as [->|[->|Hi]].
             - right. apply in_or_app. right. right. left. auto.
             - left. auto.
             - right. apply in_or_app. auto. }
        destruct (F3 y) as [C1 C2]. { intro Hi. apply Hy. destruct Hi as [->|Hi]; [left; auto|right].
             apply in_app_or in Hi. apply in_or_app. destruct Hi as [Hi|[->|[->|Hi]]]; auto.
             - right. right. left. auto.
             - right. left. auto.
             - right. right. right. auto. }
        split; congruence.
  Qed.

  Lemma sort_isort : forall l fuel H h s, holds H h l -> ~ In s (h :: l) -> length l < fuel ->
    exists H', sort cmp fuel H h s = Some H' /\ holds H' h (isort l []) /\ frame H H' (s :: h :: l).
  Proof.
    intros l fuel H h s W Hs Hf. unfold sort.
    destruct (init_correct H s) as [W0 F0].
    assert (W1 : holds (list_init H s) h l).
    { apply (frame_others _ _ _ F0); auto. intros y Hy [<-|[]]. auto. }
    destruct (sort_insert_correct l [] fuel fuel (list_init H s) h s W1 W0) as (H1 & E1 & A1 & A2 & F1).
    - intros y Hy [<-|[]]. auto.
    - auto.
    - simpl. lia.
    - rewrite E1. destruct (sort_move_correct (isort l []) [] fuel H1 h s A1 A2) as (H2 & E2 & B1 & B2 & F2).
      + intros y [<-|[]] Hy. destruct Hy as [->|Hy]; [apply Hs; left; auto|].
        assert (In h l). { pose proof (isort_perm l []) as P. rewrite app_nil_r in P.
          apply (Permutation_in _ (Permutation_sym P)). auto. }
        destruct W as [N _]. inversion N; subst. auto.
      + pose proof (Permutation_length (isort_perm l [])) as P. rewrite app_nil_r in P. lia.
      + exists H2. split; auto. split; auto.
        intros y Hy.
        destruct (F0 y) as [P1 P2]. { intros [->|[]]. apply Hy. left. auto. }
        destruct (F1 y) as [Q1 Q2]. { intro Hi. apply Hy. destruct Hi as [->|Hi]; [right; left; auto|].
          apply in_app_or in Hi. destruct Hi as [Hi|[->|[]]]; [right; right; auto|left; auto]. }
        destruct (F2 y) as [R1 R2]. { intro Hi. apply Hy. destruct Hi as [->|[->|Hi]]; [right; left; auto|left; auto|].
          right. right. pose proof (isort_perm l []) as P. rewrite app_nil_r in P.
          apply (Permutation_in _ (Permutation_sym P)). auto. }
        split; congruence.
  Qed.

  Hypothesis TP : total_preorder cmp.

  Notation ltp := (fun a b => (cmp a b <= 0)%Z).

  Lemma insert_sorted : forall p m, StronglySorted ltp m -> StronglySorted ltp (insert p m).
  Proof.
    destruct TP as [tot tr].
    induction m as [|q m IH]; simpl; intro S.
    - repeat constructor.
    - inversion S as [|? ? S' F]; subst. destruct (Z.ltb_spec 0 (cmp q p)).
      + constructor; auto. assert (cmp p q <= 0)%Z by (destruct (tot p q); lia).
        constructor; auto. rewrite Forall_forall in *. intros z Hz. apply (tr p q z); auto.
      + constructor; auto. rewrite Forall_forall in *. intros z Hz.
        apply (Permutation_in _ (Permutation_sym (insert_perm p m))) in Hz. destruct Hz as [<-|Hz]; auto.
  Qed.

  Lemma isort_sorted : forall l m, StronglySorted ltp m -> StronglySorted ltp (isort l m).
  Proof. induction l; simpl; intros; auto. apply IHl. apply insert_sorted. auto. Qed.

  Notation eqv x := (fun y => (cmp x y <=? 0)%Z && (cmp y x <=? 0)%Z).

  Lemma filter_none : forall (f : nat -> bool) l, (forall y, In y l -> f y = false) -> filter f l = [].
  Proof. induction l; simpl; intros; auto. rewrite H by auto. auto. Qed.

  Lemma filter_move : forall (f : nat -> bool) p m, (f p = true -> filter f m = []) ->
    filter f (p :: m) = filter f (m ++ [p]).
  Proof.
    intros f p m H. rewrite filter_app. simpl. destruct (f p); [rewrite H; auto|rewrite app_nil_r; auto].
  Qed.

  Lemma insert_stable : forall x p m, StronglySorted ltp m ->
    filter (eqv x) (insert p m) = filter (eqv x) (m ++ [p]).
  Proof.
    destruct TP as [tot tr].
    induction m as [|q m IH]; intro S; auto.
    inversion S as [|? ? S' F]; subst. cbn [insert]. destruct (Z.ltb_spec 0 (cmp q p)).
    - (* nothing equivalent to p is in q :: m when p is selected *)
      apply filter_move. intro Ep. apply filter_none. intros y Hy. apply andb_false_iff.
      apply andb_true_iff in Ep. destruct Ep as [Ep1 Ep2]. apply Z.leb_le in Ep1, Ep2.
      assert (cmp q y <= 0)%Z.
      { destruct Hy as [<-|Hy]; [destruct (tot q q); auto|]. rewrite Forall_forall in F. apply F. auto. }
      right. apply Z.leb_gt. destruct (Z.leb_spec (cmp y x) 0); auto.
      assert (cmp q x <= 0)%Z by (apply (tr q y x); auto).
      assert (cmp q p <= 0)%Z by (apply (tr q x p); auto). lia.
    - cbn [filter app]. rewrite IH; auto.
  Qed.

  Lemma isort_stable : forall x l m, StronglySorted ltp m ->
    filter (eqv x) (isort l m) = filter (eqv x) (m ++ l).
  Proof.
    induction l as [|p l IH]; simpl; intros m S.
    - rewrite app_nil_r. auto.
    - rewrite IH by (apply insert_sorted; auto). rewrite !filter_app. rewrite insert_stable by auto.
      rewrite filter_app. rewrite <- app_assoc. f_equal. simpl. destruct (_ && _); auto.
  Qed.

  Lemma isort_stable_sort : forall l, stable_sort_of cmp l (isort l []).
  Proof.
    intro l. split; [|split].
    - pose proof (isort_perm l []) as P. rewrite app_nil_r in P. auto.
    - apply isort_sorted. constructor.
    - intro x. rewrite isort_stable by constructor. auto.
  Qed.
End SortProofs.

Lemma sort_correct : forall cmp, total_preorder cmp ->
  forall l fuel H h s, holds H h l -> ~ In s (h :: l) -> length l < fuel ->
  exists H' l', sort cmp fuel H h s = Some H' /\ holds H' h l' /\ stable_sort_of cmp l l' /\
                others_untouched H H' (s :: h :: l).
Proof.
  intros cmp TP l fuel H h s W Hs Hf.
  destruct (sort_isort cmp l fuel H h s W Hs Hf) as (H' & E & W' & F).
  exists H', (isort cmp l []). split; auto. split; auto. split.
  - apply isort_stable_sort; auto.
  - apply frame_others; auto.
Qed.

Lemma sort_perm : forall cmp l fuel H h s, holds H h l -> ~ In s (h :: l) -> length l < fuel ->
  exists H' l', sort cmp fuel H h s = Some H' /\ holds H' h l' /\ Permutation l l'.
Proof.
  intros cmp l fuel H h s W Hs Hf.
  destruct (sort_isort cmp l fuel H h s W Hs Hf) as (H' & E & W' & F).
  exists H', (isort cmp l []). split; auto. split; auto.
  pose proof (isort_perm cmp l []) as P. rewrite app_nil_r in P. auto.
Qed.

(** packaging for the final statements *)
Lemma push_final : forall H h l e, holds H h l -> ~ In e (h :: l) ->
  holds (push H h e) h (e :: l) /\ others_untouched H (push H h e) (e :: h :: l).
Proof. intros. destruct (push_correct H h l e) as [A B]; auto. split; auto. apply frame_others; auto. Qed.
Lemma push_back_final : forall H h l e, holds H h l -> ~ In e (h :: l) ->
  holds (push_back H h e) h (l ++ [e]) /\ others_untouched H (push_back H h e) (e :: h :: l).
Proof. intros. destruct (push_back_correct H h l e) as [A B]; auto. split; auto. apply frame_others; auto. Qed.
Lemma add_before_final : forall H h l1 x l2 e, holds H h (l1 ++ x :: l2) -> ~ In e (h :: l1 ++ x :: l2) ->
  holds (add_before H x e) h (l1 ++ e :: x :: l2) /\ others_untouched H (add_before H x e) (e :: h :: l1 ++ x :: l2).
Proof. intros. destruct (add_before_correct H h l1 x l2 e) as [A B]; auto. split; auto. apply frame_others; auto. Qed.
Lemma add_after_final : forall H h l1 x l2 e, holds H h (l1 ++ x :: l2) -> ~ In e (h :: l1 ++ x :: l2) ->
  holds (add_after H x e) h (l1 ++ x :: e :: l2) /\ others_untouched H (add_after H x e) (e :: h :: l1 ++ x :: l2).
Proof. intros. destruct (add_after_correct H h l1 x l2 e) as [A B]; auto. split; auto. apply frame_others; auto. Qed.
Lemma out_final : forall H h l1 e l2, holds H h (l1 ++ e :: l2) ->
  holds (out H e) h (l1 ++ l2) /\ holds (out H e) e [] /\ others_untouched H (out H e) (h :: l1 ++ e :: l2).
Proof. intros. destruct (out_correct H h l1 e l2) as (A & B & C); auto. repeat split; try apply A; try apply B; apply (frame_others _ _ _ C); auto. Qed.
Lemma pop_final : forall H h x l, holds H h (x :: l) ->
  snd (pop H h) = x /\ holds (fst (pop H h)) h l /\ others_untouched H (fst (pop H h)) (h :: x :: l).
Proof. intros. destruct (pop_correct H h x l) as (A & B & C & D); auto. split; auto. split; auto. apply frame_others; auto. Qed.
Lemma pop_back_final : forall H h x l, holds H h (l ++ [x]) ->
  snd (pop_back H h) = x /\ holds (fst (pop_back H h)) h l /\ others_untouched H (fst (pop_back H h)) (h :: l ++ [x]).
Proof. intros. destruct (pop_back_correct H h x l) as (A & B & C & D); auto. split; auto. split; auto. apply frame_others; auto. Qed.
Lemma for_each_final : forall drop l fuel H h, holds H h l -> length l < fuel ->
  exists H', for_each_entry fuel drop H h = Some (H', l) /\
             holds H' h (filter (fun x => negb (drop x)) l) /\
             (forall x, In x l -> drop x = true -> holds H' x []) /\ others_untouched H H' (h :: l).
Proof.
  intros. destruct (for_each_entry_correct drop l fuel H h) as (H' & A & B & C & D); auto.
  exists H'. split; auto. split; auto. split; auto. apply frame_others; auto.
Qed.
(** the ends of a list *)
Lemma ends_correct : forall H h l, holds H h l ->
  top_entry H h = hd_error l /\ bottom_entry H h = hd_error (rev l) /\
  (forall e, l <> [] -> (is_first H h e = true <-> hd_error l = Some e)) /\ (forall e, l <> [] -> (is_last H h e = true <-> hd_error (rev l) = Some e)).
Proof.
  intros H h l W. unfold top_entry, bottom_entry, is_first, is_last. destruct (empty H h) eqn:E.
  - apply (empty_correct _ _ _ W) in E. subst l. split; [reflexivity|]. split; [reflexivity|]. split; congruence.
  - assert (N : l <> []) by (intros ->; rewrite (proj2 (empty_correct _ _ _ W) eq_refl) in E; discriminate).
    destruct (holds_head _ _ _ W) as [-> ->]. destruct l as [|x l] using rev_ind; [congruence|]. clear IHl. rewrite rev_app_distr, last_last. cbn [rev app hd_error].
    split; [destruct l; reflexivity|]. split; [reflexivity|]. split; intros e _; rewrite Nat.eqb_eq; destruct l; cbn; split; congruence.
Qed.
Lemma pop_entry_correct : forall H h l, holds H h l ->
  snd (pop_entry H h) = hd_error l /\ holds (fst (pop_entry H h)) h (tl l) /\ (l = [] -> fst (pop_entry H h) = H) /\ others_untouched H (fst (pop_entry H h)) (h :: l).
Proof.
  intros H h l W. unfold pop_entry. destruct l as [|x l].
  - rewrite (empty_nil _ _ W). cbn. split; [reflexivity|]. split; [exact W|]. split; [reflexivity|]. intros h' l' _ W'. exact W'.
  - destruct (empty H h) eqn:E; [apply (empty_correct _ _ _ W) in E; discriminate|]. destruct (pop_final _ _ _ _ W) as (A & B & C). cbn [fst snd hd_error tl]. rewrite A. split; [reflexivity|]. split; [exact B|]. split; [discriminate|exact C].
Qed.
