From Coq Require Import List NArith Bool Arith Lia.
From Verif Require Import HookModel HookSpec HookProofs.
Import ListNotations.
Local Open Scope N_scope.

(* what is known of the state after the events *)
Record known (B : list (N * bool)) (st : state) (pre : list event) : Prop := {
  kn_labels : NoDup (labels st);
  kn_blocks : forall s, In s (scopes st) -> In (s_label s, s_noleak s) B;
  kn_once : forall s, In s (scopes st) -> NoDup (map fst (s_pieces s));
  kn_seen : forall s k f, In s (scopes st) -> In (k, f) (s_pieces s) -> In (Seen k (Some (s_label s))) pre /\ (f = true <-> In (Freed k) pre);
  kn_all : forall s k, In s (scopes st) -> In (Seen k (Some (s_label s))) pre -> exists f, In (k, f) (s_pieces s);
  kn_place : forall k l1 l2, In (Seen k (Some l1)) pre -> In (Seen k (Some l2)) pre -> l1 = l2;
  kn_freed : forall k, In (Freed k) pre -> exists l, In (Seen k l) pre;
  kn_exact : leaks_exact B pre }.
Definition fresh_ids (ks : list N) (pre : list event) : Prop := forall k x, In k ks -> ~ In (Seen k x) pre.
Definition fresh_labels (ls : list N) (st : state) (pre : list event) : Prop := forall l, In l ls -> ~ In l (labels st) /\ forall k, ~ In (Seen k (Some l)) pre.
Definition seen_in (ks ls ls0 : list N) (e : list event) : Prop :=
  forall k x, In (Seen k x) e -> In k ks /\ forall l, x = Some l -> In l ls \/ In l ls0.

Lemma nodup_app {A} (l1 l2 : list A) : NoDup l1 -> NoDup l2 -> (forall x, In x l1 -> ~ In x l2) -> NoDup (l1 ++ l2).
Proof.
  intros H1 H2 H. induction H1 as [|x l1 Hx H1 IH]; [exact H2|]. cbn. constructor.
  - intros Hi. apply in_app_or in Hi as [Hi|Hi]; [auto | exact (H x (or_introl eq_refl) Hi)].
  - apply IH. intros y Hy. apply H. right. exact Hy.
Qed.
Lemma nodup_parts {A} (l1 l2 : list A) : NoDup (l1 ++ l2) -> NoDup l1 /\ NoDup l2 /\ forall x, In x l1 -> ~ In x l2.
Proof.
  induction l1 as [|x l1 IH]; cbn; intros H; [split; [constructor|]; split; [exact H | intros x []]|].
  inversion H as [|? ? Hni Hnd]. subst. destruct (IH Hnd) as (A1 & A2 & A3). split; [constructor; [|exact A1]; intros Hi; apply Hni; apply in_or_app; auto|].
  split; [exact A2|]. intros y [<-|Hy]; [|auto]. intros Hi. apply Hni. apply in_or_app. auto.
Qed.
Lemma exact_app B pre e : leaks_exact B pre -> (forall l ks, ~ In (Ended l ks) e) -> leaks_exact B (pre ++ e).
Proof.
  intros H Hn before l ks after nl E Hb.
  assert (K : exists after2, pre = before ++ Ended l ks :: after2).
  { clear H Hb. revert before E. induction pre as [|x pre IH]; intros before E.
    - exfalso. cbn in E. apply (Hn l ks). rewrite E. apply in_or_app. right. left. reflexivity.
    - destruct before as [|y before]; cbn in E; injection E as Ex Er.
      + exists pre. cbn. congruence.
      + destruct (IH before Er) as [a Ha]. exists a. cbn. congruence. }
  destruct K as [a ->]. eapply H; [reflexivity | exact Hb].
Qed.
Lemma exact_snoc B pre l ks : leaks_exact B pre ->
  (forall nl, In (l, nl) B -> if nl then ks = [] else forall k, In k ks <-> In (Seen k (Some l)) pre /\ ~ In (Freed k) pre) -> leaks_exact B (pre ++ [Ended l ks]).
Proof.
  intros H Hl before l1 ks1 after nl E Hb.
  destruct (exists_last (l := Ended l1 ks1 :: after)) as (a & z & Ez); [discriminate|]. rewrite Ez, app_assoc in E.
  apply app_inj_tail in E as [E1 E2].
  destruct a as [|y a].
  - cbn in Ez. injection Ez as Ez _. rewrite app_nil_r in E1. subst before.
    assert (l1 = l /\ ks1 = ks) as [-> ->] by (split; congruence). apply Hl. exact Hb.
  - cbn in Ez. injection Ez as <- _. eapply H; [exact E1 | exact Hb].
Qed.

Lemma known_hook B o b st pre : known B st pre -> known B (hook o b st) pre.
Proof. intros []. split; unfold labels in *; rewrite ?hook_scopes; auto. Qed.
Lemma known_push B l n st pre : known B st pre -> In (l, n) B -> fresh_labels [l] st pre -> known B (push l n st) pre.
Proof.
  intros [A1 A2 A3 A4 A5 A6 A7 A8] Hb Hf. destruct (Hf l (or_introl eq_refl)) as [F1 F2]. split; auto.
  - unfold labels, push. cbn. constructor; assumption.
  - intros s [<-|Hs]; [exact Hb | auto].
  - intros s [<-|Hs]; [constructor | auto].
  - intros s k f [<-|Hs] Hi; [destruct Hi | eauto].
  - intros s k [<-|Hs] Hi; [destruct (F2 k Hi) | eauto].
Qed.
Lemma known_pop B st pre s r : known B st pre -> scopes st = s :: r -> known B (mkstate (overrides st) (installed st) r) pre.
Proof.
  intros [A1 A2 A3 A4 A5 A6 A7 A8] E. unfold labels in *. rewrite E in *. split; cbn; auto.
  - inversion A1; assumption.
  - intros x Hx. apply A2. right. exact Hx.
  - intros x Hx. apply A3. right. exact Hx.
  - intros x k f Hx. apply A4. right. exact Hx.
  - intros x k Hx. apply A5. right. exact Hx.
Qed.
(* events that are neither allocations nor releases nor ends *)
Definition neutral (e : event) : Prop := (exists k, e = Unknown k) \/ (exists k, e = Twice k) \/ (exists k, e = Seen k None).
Lemma known_neutral B st pre e : known B st pre -> neutral e -> known B st (pre ++ [e]).
Proof.
  intros [A1 A2 A3 A4 A5 A6 A7 A8] Hn.
  assert (HF : forall k, In (Freed k) (pre ++ [e]) <-> In (Freed k) pre).
  { intros k. rewrite in_app_iff. split; [|auto]. intros [H|[H|[]]]; [exact H|]. subst e. destruct Hn as [[x D]|[[x D]|[x D]]]; discriminate. }
  assert (HS : forall k l, In (Seen k (Some l)) (pre ++ [e]) <-> In (Seen k (Some l)) pre).
  { intros k l. rewrite in_app_iff. split; [|auto]. intros [H|[H|[]]]; [exact H|]. subst e. destruct Hn as [[x D]|[[x D]|[x D]]]; discriminate. }
  split; auto.
  - intros s k f Hs Hi. rewrite HF, HS. eauto.
  - intros s k Hs Hi. apply HS in Hi. eauto.
  - intros k l1 l2 H1 H2. apply HS in H1, H2. eauto.
  - intros k Hk. apply HF in Hk. destruct (A7 _ Hk) as [l Hl]. exists l. apply in_or_app. auto.
  - apply exact_app; [exact A8|]. intros l ks [H|[]]. subst e. destruct Hn as [[x D]|[[x D]|[x D]]]; discriminate.
Qed.
Lemma known_end B st pre s r : NoDup (map fst B) -> known B st pre -> scopes st = s :: r ->
  known B (mkstate (overrides st) (installed st) r) (pre ++ [Ended (s_label s) (unreleased s)]).
Proof.
  intros HB K E. assert (K1 := known_pop B st pre s r K E). destruct K as [A1 A2 A3 A4 A5 A6 A7 A8].
  assert (Hs : In s (scopes st)) by (rewrite E; left; reflexivity).
  destruct K1 as [C1 C2 C3 C4 C5 C6 C7 C8].
  assert (HF : forall k x, In (Freed k) (pre ++ [Ended (s_label s) x]) <-> In (Freed k) pre).
  { intros k x. rewrite in_app_iff. split; [|auto]. intros [H|[H|[]]]; [exact H | discriminate]. }
  assert (HS : forall k l x, In (Seen k l) (pre ++ [Ended (s_label s) x]) <-> In (Seen k l) pre).
  { intros k l x. rewrite in_app_iff. split; [|auto]. intros [H|[H|[]]]; [exact H | discriminate]. }
  split; auto.
  - intros x k f Hx Hi. rewrite HF, HS. eauto.
  - intros x k Hx Hi. apply HS in Hi. eauto.
  - intros k l1 l2 H1 H2. apply HS in H1, H2. eauto.
  - intros k Hk. apply HF in Hk. destruct (A7 _ Hk) as [l Hl]. exists l. apply HS. exact Hl.
  - apply exact_snoc; [exact A8|]. intros nl Hnl.
    assert (Hsame : nl = s_noleak s).
    { clear - HB Hnl Hs A2. apply A2 in Hs. clear A2. induction B as [|[l b] B IH]; [destruct Hnl|]. cbn in HB. inversion HB as [|? ? Hni Hnd]. subst.
      destruct Hnl as [Hnl|Hnl], Hs as [Hs|Hs]; try congruence.
      - exfalso. apply Hni. injection Hnl as -> ->. apply (in_map fst) in Hs. exact Hs.
      - exfalso. apply Hni. injection Hs as -> ->. apply (in_map fst) in Hnl. exact Hnl.
      - auto. }
    subst nl. unfold unreleased. destruct (s_noleak s); [reflexivity|]. intros k. rewrite in_map_iff. split.
    + intros ([k1 f] & <- & Hi). apply filter_In in Hi as [Hi Hf]. cbn in *. destruct f; [discriminate|].
      destruct (A4 _ _ _ Hs Hi) as [S1 S2]. split; [exact S1|]. intros Hk. apply S2 in Hk. discriminate.
    + intros [S1 S2]. destruct (A5 _ _ Hs S1) as [f Hi]. destruct (A4 _ _ _ Hs Hi) as [_ S3].
      exists (k, f). split; [reflexivity|]. apply filter_In. split; [exact Hi|]. destruct f; [|reflexivity]. destruct S2. apply S3. reflexivity.
Qed.
Lemma known_alloc B st pre k s r : known B st pre -> scopes st = s :: r -> fresh_ids [k] pre -> known B (add_piece k st) (pre ++ [Seen k (Some (s_label s))]).
Proof.
  intros [A1 A2 A3 A4 A5 A6 A7 A8] E Hf.
  assert (F : forall x, ~ In (Seen k x) pre) by (intros x; apply Hf; left; reflexivity).
  assert (Hs : In s (scopes st)) by (rewrite E; left; reflexivity).
  assert (L : labels (add_piece k st) = labels st) by apply add_piece_labels.
  assert (Hn : ~ In (Freed k) pre) by (intros H; apply A7 in H as [l Hl]; exact (F _ Hl)).
  assert (HF : forall k1 x, In (Freed k1) (pre ++ [Seen k x]) <-> In (Freed k1) pre).
  { intros k1 x. rewrite in_app_iff. split; [|auto]. intros [H|[H|[]]]; [exact H | discriminate]. }
  unfold add_piece in *. rewrite E in *. split; cbn [scopes]; auto.
  - rewrite L. unfold labels in A1. exact A1.
  - intros x [<-|Hx]; cbn; [apply (A2 s); left; reflexivity | apply A2; right; exact Hx].
  - intros x [<-|Hx]; cbn; [|apply A3; right; exact Hx].
    rewrite map_app. cbn. apply nodup_app; [apply A3; left; reflexivity | repeat constructor; auto |].
    intros y Hy [<-|[]]. apply in_map_iff in Hy as ([k1 f] & Hk & Hi). cbn in Hk. subst k1. destruct (A4 _ _ _ (or_introl eq_refl) Hi) as [S1 _]. exact (F _ S1).
  - intros x k1 f [<-|Hx] Hi; cbn in *.
    + rewrite HF. apply in_app_or in Hi as [Hi|[Hi|[]]].
      * destruct (A4 s _ _ (or_introl eq_refl) Hi) as [S1 S2]. split; [apply in_or_app; auto | exact S2].
      * injection Hi as <- <-. split; [apply in_or_app; right; left; reflexivity|]. split; [discriminate | intros H; destruct (Hn H)].
    + rewrite HF. destruct (A4 x _ _ (or_intror Hx) Hi) as [S1 S2]. split; [apply in_or_app; auto | exact S2].
  - intros x k1 [<-|Hx] Hi; cbn in *.
    + apply in_app_or in Hi as [Hi|[Hi|[]]].
      * destruct (A5 s _ (or_introl eq_refl) Hi) as [f Hp]. exists f. apply in_or_app. auto.
      * injection Hi as <-. exists false. apply in_or_app. right. left. reflexivity.
    + apply in_app_or in Hi as [Hi|[Hi|[]]].
      * apply (A5 x); [right; exact Hx | exact Hi].
      * exfalso. injection Hi as <- Hl. unfold labels in A1. rewrite E in A1. cbn in A1. inversion A1 as [|? ? Hni _]. apply Hni. rewrite Hl. apply in_map. exact Hx.
  - intros k1 l1 l2 H1 H2. apply in_app_or in H1 as [H1|[H1|[]]]; apply in_app_or in H2 as [H2|[H2|[]]].
    + eauto.
    + injection H2 as <- <-. destruct (F _ H1).
    + injection H1 as <- <-. destruct (F _ H2).
    + congruence.
  - intros k1 Hk. apply HF in Hk. destruct (A7 _ Hk) as [l Hl]. exists l. apply in_or_app. auto.
  - apply exact_app; [exact A8|]. intros l ks [H|[]]. discriminate.
Qed.

(* a release *)
Lemma mark_spec k : forall ps ps1 f, mark k ps = Some (ps1, f) -> map fst ps1 = map fst ps /\ In (k, f) ps /\
  (NoDup (map fst ps) -> forall k1 g, In (k1, g) ps1 <-> (k1 = k /\ g = true) \/ (k1 <> k /\ In (k1, g) ps)).
Proof.
  induction ps as [|[k0 g0] r IH]; intros ps1 f H; [discriminate|]. cbn in H. destruct (N.eqb_spec k0 k) as [->|Hne].
  - injection H as <- <-. cbn. repeat split; auto.
    + intros [E|Hi]; [injection E as <- <-; auto|]. right. split; [|auto]. intros ->. inversion H as [|? ? Hni _]. apply Hni. apply (in_map fst) in Hi. exact Hi.
    + intros [[-> ->]|[Hn [E|Hi]]]; [auto | congruence | auto].
  - destruct (mark k r) as [[r1 f1]|] eqn:E; [|discriminate]. cbn in H. injection H as <- <-. destruct (IH _ _ eq_refl) as (A1 & A2 & A3).
    cbn. split; [congruence|]. split; [auto|]. intros Hd k1 g. inversion Hd as [|? ? Hni Hnd]. subst. rewrite (A3 Hnd). split.
    + intros [Ei|[[-> ->]|[Hn Hi]]]; [injection Ei as <- <-; right; auto | auto | auto].
    + intros [[-> ->]|[Hn [Ei|Hi]]]; auto.
Qed.
Lemma mark_none k : forall ps, mark k ps = None -> forall g, ~ In (k, g) ps.
Proof.
  induction ps as [|[k0 g0] r IH]; intros H g Hi; [exact Hi|]. cbn in H. destruct (N.eqb_spec k0 k) as [->|Hne]; [discriminate|].
  destruct (mark k r) as [[r1 f1]|] eqn:E; [discriminate|]. destruct Hi as [Ei|Hi]; [congruence | exact (IH eq_refl g Hi)].
Qed.
Lemma release_spec k : forall ss ss1 f, release k ss = Some (ss1, f) ->
  exists s1 s ps s2, ss = s1 ++ s :: s2 /\ ss1 = s1 ++ mkscope (s_label s) (s_noleak s) ps :: s2 /\ mark k (s_pieces s) = Some (ps, f).
Proof.
  induction ss as [|s r IH]; intros ss1 f H; [discriminate|]. cbn in H. destruct (mark k (s_pieces s)) as [[ps f1]|] eqn:E.
  - injection H as <- <-. exists [], s, ps, r. auto.
  - destruct (release k r) as [[rr f1]|] eqn:E1; [|discriminate]. cbn in H. injection H as <- <-.
    destruct (IH _ _ eq_refl) as (s1 & s0 & ps & s2 & -> & -> & Hm). exists (s :: s1), s0, ps, s2. auto.
Qed.
Lemma known_release B st pre k ss : known B st pre -> release k (scopes st) = Some (ss, false) -> known B (mkstate (overrides st) (installed st) ss) (pre ++ [Freed k]).
Proof.
  intros [A1 A2 A3 A4 A5 A6 A7 A8] H. assert (L := release_labels _ _ _ _ H). apply release_spec in H as (s1 & s & ps & s2 & E & -> & Hm).
  assert (Hs : In s (scopes st)) by (rewrite E; apply in_or_app; right; left; reflexivity).
  destruct (mark_spec _ _ _ _ Hm) as (M1 & M2 & M3). specialize (M3 (A3 _ Hs)).
  destruct (A4 _ _ _ Hs M2) as [S1 S2].
  assert (Hin : forall x, In x (s1 ++ mkscope (s_label s) (s_noleak s) ps :: s2) -> x = mkscope (s_label s) (s_noleak s) ps \/ (In x (scopes st) /\ s_label x <> s_label s)).
  { intros x Hx. apply in_app_or in Hx as [Hx|[Hx|Hx]]; [right | left; congruence | right].
    - split; [rewrite E; apply in_or_app; auto|]. unfold labels in A1. rewrite E, map_app in A1. apply nodup_parts in A1 as (_ & _ & A1).
      intros Heq. apply (A1 (s_label x)); [apply in_map; exact Hx | rewrite Heq; left; reflexivity].
    - split; [rewrite E; apply in_or_app; right; right; exact Hx|]. unfold labels in A1. rewrite E, map_app in A1. apply nodup_parts in A1 as (_ & A1 & _).
      cbn in A1. inversion A1 as [|? ? Hni _]. intros Heq. apply Hni. rewrite <- Heq. apply in_map. exact Hx. }
  assert (HF : forall k1, In (Freed k1) (pre ++ [Freed k]) <-> In (Freed k1) pre \/ k1 = k).
  { intros k1. rewrite in_app_iff. split; [intros [H|[H|[]]]; [auto | right; congruence] | intros [H| ->]; [auto | right; left; reflexivity]]. }
  assert (HS : forall k1 l, In (Seen k1 l) (pre ++ [Freed k]) <-> In (Seen k1 l) pre).
  { intros k1 l. rewrite in_app_iff. split; [|auto]. intros [H|[H|[]]]; [exact H | discriminate]. }
  split; cbn [scopes].
  - unfold labels in *. cbn [scopes]. rewrite L. exact A1.
  - intros x Hx. destruct (Hin x Hx) as [->|[Hx1 _]]; [exact (A2 _ Hs) | auto].
  - intros x Hx. destruct (Hin x Hx) as [->|[Hx1 _]]; [cbn; rewrite M1; exact (A3 _ Hs) | auto].
  - intros x k1 f Hx Hi. rewrite HF, HS. destruct (Hin x Hx) as [->|[Hx1 Hl]].
    + cbn in *. apply M3 in Hi as [[-> ->]|[Hn Hi]]; [split; [exact S1 | tauto]|].
      destruct (A4 _ _ _ Hs Hi) as [T1 T2]. split; [exact T1|]. split; [intros Hf; left; apply T2; exact Hf | intros [H|H]; [apply T2; exact H | contradiction]].
    + destruct (A4 _ _ _ Hx1 Hi) as [T1 T2]. split; [exact T1|]. split; [intros Hf; left; apply T2; exact Hf|]. intros [H| ->]; [apply T2; exact H|].
      exfalso. apply Hl. exact (A6 _ _ _ T1 S1).
  - intros x k1 Hx Hi. apply HS in Hi. destruct (Hin x Hx) as [->|[Hx1 Hl]]; [|eauto]. cbn in *.
    destruct (A5 _ _ Hs Hi) as [f Hp]. destruct (N.eq_dec k1 k) as [->|Hn]; [exists true; apply M3; auto | exists f; apply M3; auto].
  - intros k1 l1 l2 H1 H2. apply HS in H1, H2. eauto.
  - intros k1 Hk. apply HF in Hk as [Hk| ->]; [destruct (A7 _ Hk) as [l Hl]; exists l; apply HS; exact Hl | exists (Some (s_label s)); apply HS; exact S1].
  - apply exact_app; [exact A8|]. intros l ks [H|[]]. discriminate.
Qed.
Lemma known_twice B st pre k ss : known B st pre -> release k (scopes st) = Some (ss, true) -> known B (mkstate (overrides st) (installed st) ss) (pre ++ [Twice k]).
Proof.
  intros K H. assert (ss = scopes st).
  { apply release_spec in H as (s1 & s & ps & s2 & E & -> & Hm). rewrite E. f_equal. f_equal. destruct s as [l n p]. cbn in *. f_equal.
    clear - Hm. revert ps Hm. induction p as [|[k0 g] r IH]; intros ps H; [discriminate|]. cbn in H. destruct (N.eqb_spec k0 k) as [->|Hne]; [congruence|].
    destruct (mark k r) as [[r1 f1]|]; [|discriminate]. cbn in H. injection H as Hp Hf. subst ps f1. f_equal. auto. }
  subst ss. replace (mkstate (overrides st) (installed st) (scopes st)) with st by (destruct st; reflexivity).
  apply known_neutral; [exact K|]. right. left. eauto.
Qed.

(* code *)
Definition lblocks (b : list (N * bool)) : list N := map fst b.
Definition told (B : list (N * bool)) (bs : list (N * bool)) (ks : list N) (st : state) (pre : list event) : Prop :=
  known B st pre /\ incl bs B /\ NoDup (lblocks bs) /\ NoDup ks /\ fresh_ids ks pre /\ fresh_labels (lblocks bs) st pre.
Definition tells (B : list (N * bool)) (bs : list (N * bool)) (ks : list N) (st : state) (pre : list event) (st1 : state) (e : list event) : Prop :=
  known B st1 (pre ++ e) /\ seen_in ks (lblocks bs) (labels st) e /\ (forall l, In l (labels st1) -> In l (lblocks bs) \/ In l (labels st)).

Lemma fresh_after B bs1 ks1 bs2 ks2 st pre st1 e1 :
  told B (bs1 ++ bs2) (ks1 ++ ks2) st pre -> tells B bs1 ks1 st pre st1 e1 -> told B bs2 ks2 st1 (pre ++ e1).
Proof.
  intros (T1 & T2 & T3 & T4 & T5 & T6) (K & S1 & L1). unfold lblocks in *. rewrite map_app in *.
  apply nodup_parts in T3 as (N1 & N2 & N3). apply nodup_parts in T4 as (M1 & M2 & M3).
  split; [exact K|]. split; [intros x Hx; apply T2; apply in_or_app; auto|]. split; [exact N2|]. split; [exact M2|]. split.
  - intros k x Hk Hi. apply in_app_or in Hi as [Hi|Hi]; [exact (T5 k x (in_or_app _ _ _ (or_intror Hk)) Hi)|]. destruct (S1 _ _ Hi) as [Hk1 _]. exact (M3 _ Hk1 Hk).
  - intros l Hl. destruct (T6 l (in_or_app _ _ _ (or_intror Hl))) as [F1 F2]. split.
    + intros Hi. apply L1 in Hi as [Hi|Hi]; [exact (N3 _ Hi Hl) | exact (F1 Hi)].
    + intros k Hi. apply in_app_or in Hi as [Hi|Hi]; [exact (F2 k Hi)|]. destruct (S1 _ _ Hi) as [_ Hx]. destruct (Hx l eq_refl) as [Hx1|Hx1]; [exact (N3 _ Hx1 Hl) | exact (F1 Hx1)].
Qed.
Lemma told_first B bs1 ks1 bs2 ks2 st pre : told B (bs1 ++ bs2) (ks1 ++ ks2) st pre -> told B bs1 ks1 st pre.
Proof.
  intros (T1 & T2 & T3 & T4 & T5 & T6). unfold lblocks in *. rewrite map_app in *.
  apply nodup_parts in T3 as (N1 & N2 & N3). apply nodup_parts in T4 as (M1 & M2 & M3).
  split; [exact T1|]. split; [intros x Hx; apply T2; apply in_or_app; auto|]. split; [exact N1|]. split; [exact M1|]. split.
  - intros k x Hk. apply T5. apply in_or_app. auto.
  - intros l Hl. apply T6. apply in_or_app. auto.
Qed.
Lemma tells_then B bs1 ks1 bs2 ks2 st pre st1 e1 st2 e2 : tells B bs1 ks1 st pre st1 e1 -> tells B bs2 ks2 st1 (pre ++ e1) st2 e2 ->
  tells B (bs1 ++ bs2) (ks1 ++ ks2) st pre st2 (e1 ++ e2).
Proof.
  intros (K1 & S1 & L1) (K2 & S2 & L2). unfold tells, lblocks in *. rewrite map_app. split; [rewrite app_assoc; exact K2|]. split.
  - intros k x Hi. apply in_app_or in Hi as [Hi|Hi].
    + destruct (S1 _ _ Hi) as [A1 A2]. split; [apply in_or_app; auto|]. intros l Hl. destruct (A2 l Hl); [left; apply in_or_app; auto | auto].
    + destruct (S2 _ _ Hi) as [A1 A2]. split; [apply in_or_app; auto|]. intros l Hl. destruct (A2 l Hl) as [A3|A3]; [left; apply in_or_app; auto|].
      destruct (L1 _ A3); [left; apply in_or_app; auto | auto].
  - intros l Hl. destruct (L2 _ Hl) as [A3|A3]; [left; apply in_or_app; auto|]. destruct (L1 _ A3); [left; apply in_or_app; auto | auto].
Qed.
Lemma tells_more B bs1 ks1 bs2 ks2 st pre st1 e1 : tells B bs1 ks1 st pre st1 e1 -> tells B (bs1 ++ bs2) (ks1 ++ ks2) st pre st1 e1.
Proof.
  intros (K1 & S1 & L1). unfold tells, lblocks in *. rewrite map_app. split; [exact K1|]. split.
  - intros k x Hi. destruct (S1 _ _ Hi) as [A1 A2]. split; [apply in_or_app; auto|]. intros l Hl. destruct (A2 l Hl); [left; apply in_or_app; auto | auto].
  - intros l Hl. destruct (L1 _ Hl); [left; apply in_or_app; auto | auto].
Qed.
Lemma tells_same B bs ks st pre st1 : known B st1 pre -> labels st1 = labels st -> tells B bs ks st pre st1 [].
Proof. intros K L. unfold tells. rewrite app_nil_r, L. split; [exact K|]. split; [intros k x [] | auto]. Qed.

Lemma code_tells_from o B b : Forall (fun s => forall st pre out st1 e, told B (blocks s) (allocs s) st pre -> exec o s st = (out, st1, e) -> tells B (blocks s) (allocs s) st pre st1 e) b ->
  forall st pre out st1 e, told B (flat_map blocks b) (flat_map allocs b) st pre -> run_code o b st = (out, st1, e) -> tells B (flat_map blocks b) (flat_map allocs b) st pre st1 e.
Proof.
  intros Hb. induction Hb as [|x r Hx Hr IH]; intros st pre out st1 e HT H.
  - injection H as <- <- <-. apply tells_same; [exact (proj1 HT) | reflexivity].
  - cbn [flat_map] in *. apply in_order_step in H as [(st3 & e1 & e2 & H1 & H2 & ->) | [_ H]].
    + assert (T1 := Hx _ _ _ _ _ (told_first _ _ _ _ _ _ _ HT) H1). eapply tells_then; [exact T1|]. eapply IH; [|exact H2]. eapply fresh_after; eauto.
    + apply tells_more. eapply Hx; [eapply told_first; exact HT | exact H].
Qed.
Lemma seen_one ks ls ls0 e : (forall k x, In (Seen k x) e -> False) -> seen_in ks ls ls0 e.
Proof. intros H k x Hi. destruct (H k x Hi). Qed.
Lemma exec_tells o B (HB : NoDup (map fst B)) : forall s st pre out st1 e, told B (blocks s) (allocs s) st pre -> exec o s st = (out, st1, e) -> tells B (blocks s) (allocs s) st pre st1 e.
Proof.
  intros s. induction s as [k|k| | | |b Hb|l u n b Hb] using stmt_all; intros st pre out st1 e HT H; cbn [exec] in H.
  - destruct HT as (K & _ & _ & _ & F & _). destruct (watching st).
    + injection H as <- <- <-. unfold top_label. destruct (scopes st) as [|s r] eqn:E.
      * assert (A : add_piece k st = st) by (unfold add_piece; rewrite E; reflexivity). rewrite A.
        split; [apply known_neutral; [exact K | right; right; eauto]|]. split; [|auto]. intros k1 x [[= <- <-]|[]]. split; [left; reflexivity | discriminate].
      * split; [eapply known_alloc; eauto|]. split; [|intros l; unfold labels; rewrite add_piece_labels; auto].
        intros k1 x [[= <- <-]|[]]. split; [left; reflexivity|]. intros l [= <-]. right. unfold labels. rewrite E. left. reflexivity.
    + injection H as <- <- <-. split; [apply known_neutral; [exact K | right; right; eauto]|]. split; [|auto]. intros k1 x [[= <- <-]|[]]. split; [left; reflexivity | discriminate].
  - destruct HT as (K & _). destruct (watching st).
    + destruct (release k (scopes st)) as [[ss [|]]|] eqn:E; injection H as <- <- <-.
      * split; [apply known_twice; assumption|]. split; [apply seen_one; intros k1 x [D|[]]; discriminate|]. intros l. unfold labels. cbn [scopes]. rewrite (release_labels _ _ _ _ E). auto.
      * split; [apply known_release; assumption|]. split; [apply seen_one; intros k1 x [D|[]]; discriminate|]. intros l. unfold labels. cbn [scopes]. rewrite (release_labels _ _ _ _ E). auto.
      * split; [apply known_neutral; [exact K | left; eauto]|]. split; [apply seen_one; intros k1 x [D|[]]; discriminate | auto].
    + destruct (ours k st); injection H as <- <- <-; apply tells_same; auto.
  - injection H as <- <- <-. apply tells_same; [apply known_hook, known_hook; exact (proj1 HT) | unfold labels; rewrite !hook_scopes; reflexivity].
  - injection H as <- <- <-. apply tells_same; [exact (proj1 HT) | reflexivity].
  - injection H as <- <- <-. apply tells_same; [apply known_hook, known_hook; exact (proj1 HT) | unfold labels; rewrite !hook_scopes; reflexivity].
  - cbn [blocks allocs] in *. destruct (in_order (exec o) b st) as [[o2 st2] e2] eqn:E.
    assert (T := code_tells_from o B b Hb _ _ _ _ _ HT E). destruct o2; injection H as <- <- <-; exact T.
  - cbn [blocks allocs] in *. set (st0 := push l n (if u then hook o false st else st)) in *.
    destruct (in_order (exec o) b st0) as [[o2 st2] e2] eqn:E.
    destruct HT as (K & I1 & D1 & D2 & F1 & F2). cbn in D1. inversion D1 as [|? ? Hni Hnd]. subst.
    assert (Ls : labels st0 = l :: labels st) by (unfold st0, labels, push; cbn; destruct u; rewrite ?hook_scopes; reflexivity).
    assert (Fl : fresh_labels [l] st pre) by (intros l1 [<-|[]]; apply F2; left; reflexivity).
    assert (HT0 : told B (flat_map blocks b) (flat_map allocs b) st0 pre).
    { split; [apply known_push; [destruct u; [apply known_hook|]; exact K | apply I1; left; reflexivity | destruct u; [|exact Fl]; unfold fresh_labels, labels in *; rewrite hook_scopes; exact Fl]|].
      split; [intros x Hx; apply I1; right; exact Hx|]. split; [exact Hnd|]. split; [exact D2|]. split; [exact F1|].
      intros l1 Hl1. rewrite Ls. destruct (F2 l1 (or_intror Hl1)) as [G1 G2]. split; [|exact G2]. intros [<-|Hi]; [exact (Hni Hl1) | exact (G1 Hi)]. }
    destruct (code_tells_from o B b Hb _ _ _ _ _ HT0 E) as (K2 & S2 & L2).
    assert (S3 : seen_in (flat_map allocs b) (lblocks ((l, n) :: flat_map blocks b)) (labels st) e2).
    { intros k x Hi. destruct (S2 _ _ Hi) as [A1 A2]. split; [exact A1|]. intros l1 Hl1. destruct (A2 l1 Hl1) as [A3|A3]; [left; right; exact A3|].
      rewrite Ls in A3. destruct A3 as [<-|A3]; [left; left; reflexivity | right; exact A3]. }
    assert (L3 : forall l1, In l1 (labels st2) -> In l1 (lblocks ((l, n) :: flat_map blocks b)) \/ In l1 (labels st)).
    { intros l1 Hl1. destruct (L2 l1 Hl1) as [A3|A3]; [left; right; exact A3|]. rewrite Ls in A3. destruct A3 as [<-|A3]; [left; left; reflexivity | right; exact A3]. }
    apply leave_cases in H as [(D & -> & -> & ->) | [(D & Z & -> & -> & ->) | (D & s & r & E1 & -> & H)]].
    + split; [exact K2|]. split; assumption.
    + split; [exact K2|]. split; assumption.
    + assert (K3 := known_end B st2 (pre ++ e2) s r HB K2 E1).
      assert (S4 : seen_in (flat_map allocs b) (lblocks ((l, n) :: flat_map blocks b)) (labels st) (e2 ++ [Ended (s_label s) (unreleased s)])).
      { intros k x Hi. apply in_app_or in Hi as [Hi|[Hi|[]]]; [exact (S3 _ _ Hi) | discriminate]. }
      assert (L4 : forall l1, In l1 (map s_label r) -> In l1 (lblocks ((l, n) :: flat_map blocks b)) \/ In l1 (labels st)).
      { intros l1 Hl1. apply L3. unfold labels. rewrite E1. right. exact Hl1. }
      unfold tells. rewrite app_assoc.
      destruct H as [[-> ->] | (-> & -> & _)].
      * split; [destruct u; [apply known_hook|]; exact K3|]. split; [exact S4|]. intros l1. unfold labels at 1. destruct u; rewrite ?hook_scopes; exact (L4 l1).
      * split; [exact K3|]. split; [exact S4 | exact L4].
Qed.
Lemma code_tells o B (HB : NoDup (map fst B)) b st pre out st1 e : told B (flat_map blocks b) (flat_map allocs b) st pre -> run_code o b st = (out, st1, e) ->
  tells B (flat_map blocks b) (flat_map allocs b) st pre st1 e.
Proof. apply code_tells_from. apply Forall_forall. intros s _. apply exec_tells. exact HB. Qed.

Lemma case_tells o B (HB : NoDup (map fst B)) c st pre out st1 e : told B (blocks_of c) (allocs_of c) st pre -> run_case o c st = (out, st1, e) ->
  tells B (blocks_of c) (allocs_of c) st pre st1 e.
Proof.
  intros HT H. unfold run_case in H. unfold blocks_of, allocs_of in *.
  set (st0 := push (c_label c) false st) in *.
  destruct HT as (K & I1 & D1 & D2 & F1 & F2). cbn in D1. inversion D1 as [|? ? Hni Hnd]. subst.
  set (BS := flat_map blocks (c_body c) ++ flat_map blocks (c_cleanup c)) in *. set (KS := flat_map allocs (c_body c) ++ flat_map allocs (c_cleanup c)) in *.
  assert (HT0 : told B BS KS st0 pre).
  { split; [apply known_push; [exact K | apply I1; left; reflexivity | intros l1 [<-|[]]; apply F2; left; reflexivity]|].
    split; [intros x Hx; apply I1; right; exact Hx|]. split; [exact Hnd|]. split; [exact D2|]. split; [exact F1|].
    intros l1 Hl1. destruct (F2 l1 (or_intror Hl1)) as [G1 G2]. split; [|exact G2]. intros [<-|Hi]; [exact (Hni Hl1) | exact (G1 Hi)]. }
  assert (UP : forall st2 e2, tells B BS KS st0 pre st2 e2 -> tells B ((c_label c, false) :: BS) KS st pre st2 e2).
  { intros st2 e2 (K2 & S2 & L2). split; [exact K2|]. split.
    - intros k x Hi. destruct (S2 _ _ Hi) as [A1 A2]. split; [exact A1|]. intros l1 Hl1. destruct (A2 l1 Hl1) as [A3|A3]; [left; right; exact A3|].
      destruct A3 as [<-|A3]; [left; left; reflexivity | right; exact A3].
    - intros l1 Hl1. destruct (L2 l1 Hl1) as [A3|A3]; [left; right; exact A3|]. destruct A3 as [<-|A3]; [left; left; reflexivity | right; exact A3]. }
  destruct (run_code o (c_body c) st0) as [[o1 s1] e1] eqn:E1.
  assert (T1 := code_tells o B HB _ _ _ _ _ _ (told_first _ _ _ _ _ _ _ HT0) E1).
  assert (T1' : tells B BS KS st0 pre s1 e1) by (apply tells_more; exact T1).
  destruct (run_code o (c_cleanup c) s1) as [[o2 s2] e2] eqn:E2.
  assert (T2 := code_tells o B HB _ _ _ _ _ _ (fresh_after _ _ _ _ _ _ _ _ _ HT0 T1) E2).
  assert (T3 := tells_then _ _ _ _ _ _ _ _ _ _ _ T1 T2).
  unfold pop in H. destruct (scopes s2) as [|x r] eqn:E3.
  - destruct o1, o2; injection H as <- <- <-; apply UP; assumption.
  - assert (T4 : tells B BS KS st0 pre (hook o true (mkstate (overrides s2) (installed s2) r)) (e1 ++ e2 ++ [Ended (s_label x) (unreleased x)])).
    { destruct T3 as (K3 & S3 & L3). assert (K4 := known_end B s2 _ x r HB K3 E3). rewrite (app_assoc e1). unfold tells. rewrite (app_assoc pre).
      split; [apply known_hook; exact K4|]. split.
      - intros k y Hi. apply in_app_or in Hi as [Hi|[Hi|[]]]; [exact (S3 _ _ Hi) | discriminate].
      - intros l. unfold labels at 1. rewrite hook_scopes. intros Hl. apply L3. unfold labels. rewrite E3. right. exact Hl. }
    destruct o1, o2; injection H as <- <- <-; apply UP; assumption.
Qed.
Lemma cases_tell o B (HB : NoDup (map fst B)) : forall cs st pre out st1 es, told B (flat_map blocks_of cs) (flat_map allocs_of cs) st pre -> run_cases o cs st = (out, st1, es) ->
  tells B (flat_map blocks_of cs) (flat_map allocs_of cs) st pre st1 (concat es).
Proof.
  induction cs as [|c r IH]; intros st pre out st1 es HT H.
  - injection H as <- <- <-. apply tells_same; [exact (proj1 HT) | reflexivity].
  - cbn [flat_map] in *. cbn in H. destruct (run_case o c st) as [[o1 s1] e1] eqn:E1.
    assert (T1 := case_tells o B HB _ _ _ _ _ _ (told_first _ _ _ _ _ _ _ HT) E1).
    assert (T2 : tells B (blocks_of c ++ flat_map blocks_of r) (allocs_of c ++ flat_map allocs_of r) st pre s1 (concat [e1])) by (replace (concat [e1]) with e1 by (cbn; rewrite app_nil_r; reflexivity); apply tells_more; exact T1).
    destruct o1; try (injection H as <- <- <-; exact T2).
    destruct (run_cases o r s1) as [[o2 s2] es2] eqn:E2. injection H as <- <- <-. cbn [concat]. eapply tells_then; [exact T1|].
    eapply IH; [|exact E2]. eapply fresh_after; eauto.
Qed.
Lemma leaks_of_cases o cs out st es : NoDup (0 :: 1 :: map fst (flat_map blocks_of cs)) -> NoDup (flat_map allocs_of cs) -> run_cases o cs (start o) = (out, st, es) ->
  leaks_exact (flat_map blocks_of cs) (concat es).
Proof.
  intros D1 D2 H. set (B := (0, false) :: (1, false) :: flat_map blocks_of cs).
  assert (Ls : scopes (start o) = [mkscope 1 false []; mkscope 0 false []]) by (unfold start, push; cbn; rewrite hook_scopes; reflexivity).
  assert (HT : told B (flat_map blocks_of cs) (flat_map allocs_of cs) (start o) []).
  { inversion D1 as [|? ? N1 D3]. inversion D3 as [|? ? N2 D4]. subst.
    split; [|split; [intros x Hx; right; right; exact Hx|]; split; [exact D4|]; split; [exact D2|]; split; [intros k x _ []|]].
    - split; try (intros; contradiction).
      + unfold labels. rewrite Ls. cbn. repeat constructor; cbn; intuition discriminate.
      + rewrite Ls. intros s [<-|[<-|[]]]; [right; left; reflexivity | left; reflexivity].
      + rewrite Ls. intros s [<-|[<-|[]]]; constructor.
      + rewrite Ls. intros s k f [<-|[<-|[]]] [].
      + intros before l ks after nl E. destruct before; discriminate.
    - intros l Hl. split; [|intros k []]. unfold labels. rewrite Ls. cbn. intros [<-|[<-|[]]]; [apply N2; exact Hl | apply N1; right; exact Hl]. }
  destruct (cases_tell o B D1 _ _ _ _ _ _ HT H) as (K & _). cbn in K. destruct K as [_ _ _ _ _ _ _ K].
  intros before l ks after nl E Hi. eapply K; [exact E|]. right. right. exact Hi.
Qed.
