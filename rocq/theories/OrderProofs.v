From Coq Require Import List ZArith NArith Bool Arith Permutation Sorted Lia.
From Verif Require Import Base OrderModel OrderSpec.
Import ListNotations.
Local Open Scope Z_scope.

(** *** insertion sort in general *)
Section Sort.
Context {A : Type}.
Variable cmp : A -> A -> Z.
Lemma insert_perm : forall p m, Permutation (p :: m) (insert cmp p m).
Proof. induction m as [|q m IH]; cbn; auto. destruct (0 <? cmp q p); auto. eapply Permutation_trans; [apply perm_swap|]. auto. Qed.
Lemma sort_perm_acc : forall l m, Permutation (l ++ m) (fold_left (fun m p => insert cmp p m) l m).
Proof.
  induction l as [|x l IH]; intros m; cbn; auto. eapply Permutation_trans; [|apply IH].
  eapply Permutation_trans; [apply Permutation_middle|]. apply Permutation_app_head. apply insert_perm.
Qed.
Lemma sort_perm : forall l, Permutation l (sort cmp l).
Proof. intros. unfold sort. pose proof (sort_perm_acc l []) as P. rewrite app_nil_r in P. auto. Qed.

Variable P : A -> Prop.
Variable le : A -> A -> Prop.
Hypothesis le_trans : forall a b c, P a -> P b -> P c -> le a b -> le b c -> le a c.
Hypothesis cmp_le : forall a b, P a -> P b -> ((0 <? cmp a b) = false -> le a b) /\ ((0 <? cmp a b) = true -> le b a /\ ~ le a b).

Lemma insert_P : forall p m, P p -> Forall P m -> Forall P (insert cmp p m).
Proof. intros p m Hp Hm. apply (Permutation_Forall (insert_perm p m)). constructor; auto. Qed.
Lemma insert_sorted : forall p m, P p -> Forall P m -> StronglySorted le m -> StronglySorted le (insert cmp p m).
Proof.
  induction m as [|q m IH]; intros Hp Hm S; cbn [insert].
  - constructor; auto; constructor.
  - inversion S as [|q' m' S1 S2]; subst. inversion Hm as [|q' m' P1 P2]; subst. destruct (cmp_le q p P1 Hp) as [C1 C2].
    destruct (0 <? cmp q p) eqn:E.
    + destruct (C2 eq_refl) as [L _]. constructor; [constructor; auto|]. constructor; auto.
      rewrite Forall_forall in *. intros z Hz. apply le_trans with q; auto.
    + constructor; [apply IH; auto|]. apply (Permutation_Forall (insert_perm p m)). constructor; auto.
Qed.
Lemma sort_sorted_acc : forall l m, Forall P l -> Forall P m -> StronglySorted le m -> StronglySorted le (fold_left (fun m p => insert cmp p m) l m).
Proof.
  induction l as [|x l IH]; intros m Hl Hm S; cbn; auto. inversion Hl; subst. apply IH; auto; [apply insert_P|apply insert_sorted]; auto.
Qed.
Lemma sort_sorted : forall l, Forall P l -> StronglySorted le (sort cmp l).
Proof. intros. apply sort_sorted_acc; auto. constructor. Qed.

(** ties keep their order: a tie predicate that does not separate equivalent elements *)
Variable tie : A -> bool.
Hypothesis tie_ok : forall a b, P a -> P b -> tie a = true -> tie b = true -> (0 <? cmp a b) = false.
Lemma insert_tie : forall p m, P p -> Forall P m -> StronglySorted le m ->
  (forall q, In q m -> tie q = true -> tie p = true -> le q p) ->
  filter tie (insert cmp p m) = filter tie m ++ filter tie [p].
Proof.
  induction m as [|q m IH]; intros Hp Hm S T; cbn [insert]; auto.
  inversion S as [|q' m' S1 S2]; subst. inversion Hm as [|q' m' P1 P2]; subst.
  destruct (0 <? cmp q p) eqn:E.
  - destruct (tie p) eqn:Tp.
    + (* nothing in q :: m ties with p *)
      assert (N : filter tie (q :: m) = []).
      { assert (H : forall z, In z (q :: m) -> tie z = false).
        { intros z Iz. destruct (tie z) eqn:Tz; auto. exfalso. destruct (cmp_le q p P1 Hp) as [_ C2]. destruct (C2 E) as [L NL].
          destruct Iz as [<-|Iz].
          - rewrite (tie_ok q p) in E; auto; discriminate.
          - apply NL. apply le_trans with z; auto; [rewrite Forall_forall in P2; auto|rewrite Forall_forall in S2; auto|]. apply T; auto; right; auto. }
        clear - H. induction (q :: m) as [|z l IH]; auto. cbn. rewrite (H z (or_introl eq_refl)). apply IH. intros; apply H; right; auto. }
      change (p :: q :: m) with ([p] ++ q :: m). rewrite filter_app, N, app_nil_r. auto.
    + cbn [filter]. rewrite Tp. rewrite app_nil_r. auto.
  - cbn [filter]. rewrite IH; auto; [destruct (tie q); auto|]. intros z Iz. apply T. right; auto.
Qed.
Lemma sort_tie_acc : forall l m, Forall P l -> Forall P m -> StronglySorted le m ->
  filter tie (fold_left (fun m p => insert cmp p m) l m) = filter tie m ++ filter tie l.
Proof.
  induction l as [|x l IH]; intros m Hl Hm S; cbn [fold_left]; [cbn; rewrite app_nil_r; auto|]. inversion Hl; subst.
  rewrite IH; auto; [|apply insert_P; auto|apply insert_sorted; auto]. rewrite insert_tie; auto.
  - rewrite <- app_assoc. f_equal. cbn [filter]. destruct (tie x); auto.
  - intros q Iq Tq Tx. rewrite Forall_forall in Hm. apply (cmp_le q x (Hm q Iq) H1). apply tie_ok; auto.
Qed.
Lemma sort_tie : forall l, Forall P l -> filter tie (sort cmp l) = filter tie l.
Proof. intros. unfold sort. rewrite sort_tie_acc; auto; constructor. Qed.
End Sort.

(** two arrangements of the same things, one weakly and one strictly sorted by a number, are the same *)
Lemma sorted_unique : forall (A : Type) (f : A -> Z) l l', Permutation l l' -> StronglySorted (fun a b => f a <= f b) l -> StronglySorted (fun a b => f a < f b) l' -> l = l'.
Proof.
  induction l as [|x l IH]; intros l' Pm S S'.
  - apply Permutation_nil in Pm. auto.
  - destruct l' as [|y l']; [apply Permutation_sym, Permutation_nil in Pm; discriminate|].
    inversion S as [|? ? S1 S2]; subst. inversion S' as [|? ? S1' S2']; subst. rewrite Forall_forall in S2, S2'.
    assert (x = y).
    { assert (Ix : In x (y :: l')) by (apply (Permutation_in _ Pm); left; auto). destruct Ix as [E|Ix]; auto.
      assert (Iy : In y (x :: l)) by (apply (Permutation_in _ (Permutation_sym Pm)); left; auto). destruct Iy as [E|Iy]; auto.
      specialize (S2 y Iy). specialize (S2' x Ix). lia. }
    subst y. f_equal. apply IH; auto. apply Permutation_cons_inv in Pm. auto.
Qed.

(** *** permutation *)
Lemma same_test_refl : forall t, same_test t t. Proof. intros; repeat split. Qed.
Lemma same_case_refl : forall t, same_case t t. Proof. intros; repeat split. Qed.
Lemma F2_refl : forall (A : Type) (R : A -> A -> Prop) l, (forall x, R x x) -> Forall2 R l l.
Proof. induction l; constructor; auto. Qed.

Definition same_suite (s m : tsuite) : Prop := same_test (st s) (st m) /\ exists cs, Forall2 same_case (u_cases s) cs /\ Permutation cs (u_cases m).
Definition kept (s m : tsuite) : Prop := same_test (st s) (st m) /\ Forall2 same_case (u_cases s) (u_cases m).
Lemma same_test_trans : forall a b c, same_test a b -> same_test b c -> same_test a c.
Proof. intros a b c (?&?&?&?) (?&?&?&?). repeat split; congruence. Qed.
Lemma same_case_trans : forall a b c, same_case a b -> same_case b c -> same_case a c.
Proof. intros a b c (?&?) (?&?). split; [eapply same_test_trans; eauto|congruence]. Qed.
Lemma F2_trans : forall (A : Type) (R : A -> A -> Prop), (forall a b c, R a b -> R b c -> R a c) -> forall a b c, Forall2 R a b -> Forall2 R b c -> Forall2 R a c.
Proof. intros A R T a b c H. revert c. induction H; intros c' H'; inversion H'; subst; constructor; eauto. Qed.
Lemma kept_trans : forall a b c, kept a b -> kept b c -> kept a c.
Proof. intros a b c [A1 A2] [B1 B2]. split; [eapply same_test_trans; eauto|eapply F2_trans; eauto using same_case_trans]. Qed.
Lemma kept_same : forall s m, kept s m -> same_suite s m.
Proof. intros s m [A B]. split; auto. exists (u_cases m). split; auto. Qed.
Lemma kept_refl : forall s, kept s s.
Proof. intros. split; [apply same_test_refl|apply F2_refl, same_case_refl]. Qed.

Lemma set_seq_same : forall t v, same_test t (set_seq t v). Proof. intros; repeat split. Qed.
Lemma rand_cases_kept : forall r cs i s s' cs' i', rand_cases r i s cs = (s', cs', i') -> same_test s s' /\ Forall2 same_case cs cs'.
Proof.
  induction cs as [|c cs IH]; intros i s s' cs' i' H; cbn in H.
  - inversion H; subst. split; auto. apply same_test_refl.
  - destruct (rand_cases r (S i) (set_seq s (r i)) cs) as [[s1 cs1] i1] eqn:E. inversion H; subst. destruct (IH _ _ _ _ _ E) as [A B]. split.
    + eapply same_test_trans; [|apply A]. apply set_seq_same.
    + constructor; auto. split; auto. apply set_seq_same.
Qed.
Lemma rand_suites_kept : forall r ss i, Forall2 kept ss (rand_suites r i ss).
Proof.
  induction ss as [|s ss IH]; intros i; cbn [rand_suites]; [constructor|]. destruct (rand_cases r i (st s) (u_cases s)) as [[t cs] i'] eqn:E. apply rand_cases_kept in E.
  constructor; [exact E|]. apply IH.
Qed.
Lemma find_cases_kept : forall e cs k s s' cs' k', find_in_cases e k s cs = (s', cs', k') -> same_test s s' /\ Forall2 same_case cs cs'.
Proof.
  induction cs as [|c cs IH]; intros k s s' cs' k' H; cbn [find_in_cases] in H.
  - inversion H; subst. split; auto. apply same_test_refl.
  - destruct (bytes_eqb (e_case e) (o_name (ct c)) && bytes_eqb (e_file e) (o_file (ct c))).
    + destruct (find_in_cases e (k + 1) (set_seq s (k + 1)) cs) as [[s1 cs1] k1] eqn:E. inversion H; subst. destruct (IH _ _ _ _ _ E) as [A B]. split.
      * eapply same_test_trans; [|apply A]. apply set_seq_same.
      * constructor; auto. split; auto. apply set_seq_same.
    + destruct (find_in_cases e k s cs) as [[s1 cs1] k1] eqn:E. inversion H; subst. destruct (IH _ _ _ _ _ E) as [A B]. split; auto. constructor; auto. apply same_case_refl.
Qed.
Lemma find_case_kept : forall e ss k ss' k', find_case e k ss = (ss', k') -> Forall2 kept ss ss'.
Proof.
  induction ss as [|s ss IH]; intros k ss' k' H; cbn [find_case] in H; [inversion H; constructor|].
  destruct (bytes_eqb (e_suite e) (o_name (st s))).
  - destruct (find_in_cases e k (st s) (u_cases s)) as [[t cs] k1] eqn:E. destruct (find_case e k1 ss) as [r k2] eqn:E2. inversion H; subst.
    apply find_cases_kept in E. constructor; [exact E|]. eapply IH; eauto.
  - destruct (find_case e k ss) as [r k2] eqn:E2. inversion H; subst. constructor; [apply kept_refl|]. eapply IH; eauto.
Qed.
Lemma find_all_kept : forall es k ss, Forall2 kept ss (fst (find_all es k ss)).
Proof.
  unfold find_all. intros es k ss. change ss with (fst (ss, k)) at 1. generalize (ss, k). clear.
  induction es as [|e es IH]; intros x; cbn [fold_left]; [apply F2_refl, kept_refl|].
  eapply F2_trans; [exact kept_trans| |apply IH]. destruct (find_case e (snd x) (fst x)) as [r k'] eqn:E. eapply find_case_kept; eauto.
Qed.

Lemma F2_map_r : forall (A B C : Type) (R : A -> C -> Prop) (f : B -> C) l l', Forall2 (fun a b => R a (f b)) l l' -> Forall2 R l (map f l').
Proof. intros. induction H; cbn; constructor; auto. Qed.
Lemma F2_impl : forall (A B : Type) (R S : A -> B -> Prop) l l', (forall a b, R a b -> S a b) -> Forall2 R l l' -> Forall2 S l l'.
Proof. intros. induction H0; constructor; auto. Qed.
Lemma sort_all_rearranged : forall cmp ss ss1, Forall2 kept ss ss1 -> rearranged ss (sort_all cmp ss1).
Proof.
  intros cmp ss ss1 K. unfold sort_all. set (f := fun s => mkts (st s) (sort (fun a b => cmp (ct a) (ct b)) (u_cases s))).
  exists (map f ss1). split.
  - apply F2_map_r. revert K. apply F2_impl. intros s m [A B]. split; auto. exists (u_cases m). split; auto. apply sort_perm.
  - apply Permutation_map. apply sort_perm.
Qed.
Lemma shuffle_rearranges : forall o r file k ss ss' n, shuffle o r file k ss = Some (ss', n) -> rearranged ss ss'.
Proof.
  intros o r file k ss ss' n H. unfold shuffle in H.
  destruct (match file with None => Some [] | Some f => read_entries (S (length f)) f end) as [es|]; [|discriminate].
  pose proof (find_all_kept es k ss) as K. destruct (find_all es k ss) as [ss1 k1]. cbn [fst] in K.
  destruct (negb (length es =? 0)%nat); [inversion H; subst; apply sort_all_rearranged; auto|].
  destruct (sh_any o).
  - inversion H; subst. destruct (sh_random o); [|apply sort_all_rearranged; auto].
    apply sort_all_rearranged. eapply F2_trans; [exact kept_trans|exact K|]. apply rand_suites_kept.
  - inversion H; subst. exists ss'. split; auto. revert K. apply F2_impl. intros; apply kept_same; auto.
Qed.
Lemma shuffle_defined : forall o r k ss, exists ss', shuffle o r None k ss = Some (ss', O).
Proof. intros. unfold shuffle. cbn. destruct (sh_any o); eexists; reflexivity. Qed.

(** *** by name and by file *)
Lemma tolower_nz : forall c, c <> 0%N -> tolower c <> 0%N.
Proof. intros c H. unfold tolower. destruct ((65 <=? c) && (c <=? 90))%N eqn:E; lia. Qed.
Lemma strcasecmp_spec : forall a b, ~ In 0%N a -> ~ In 0%N b ->
  (strcasecmp a b = 0 <-> fold_str true a = fold_str true b) /\ (strcasecmp a b <= 0 <-> lex_le (fold_str true a) (fold_str true b)).
Proof.
  induction a as [|x a IH]; intros [|y b] Ha Hb; cbn [strcasecmp fold_str map fold_char]; rewrite <- ?tolower_lower.
  - split; split; auto; try lia. intros; constructor.
  - assert (tolower y <> 0%N) by (apply tolower_nz; intros ->; apply Hb; left; auto). split; split; intros; try lia; try discriminate. constructor.
  - assert (tolower x <> 0%N) by (apply tolower_nz; intros ->; apply Ha; left; auto). split; split; intros H0; try lia; try discriminate. inversion H0.
  - destruct (IH b) as [I1 I2]; [intro; apply Ha; right; auto|intro; apply Hb; right; auto|]. fold (fold_str true a) (fold_str true b).
    destruct (N.eqb_spec (tolower x) (tolower y)) as [E|E].
    + rewrite I1, I2, E. unfold fold_str at 3 4 7 8. fold (fold_str true a) (fold_str true b). split; split; intro H; try (f_equal; auto; fail); try (inversion H; auto; fail).
      * apply lex_eq. auto.
      * inversion H; subst; auto. lia.
    + split; split; intro H; try lia; try (inversion H; congruence).
      * apply lex_lt. lia.
      * inversion H; subst; try lia.
Qed.
Lemma lex_refl : forall a, lex_le a a. Proof. induction a; [apply lex_nil|apply lex_eq; auto]. Qed.
Lemma lex_trans : forall a b, lex_le a b -> forall c, lex_le b c -> lex_le a c.
Proof.
  intros a b H. induction H; intros c Hc; [constructor| |].
  - inversion Hc; subst; apply lex_lt; auto; lia.
  - inversion Hc; subst; [apply lex_lt; auto|apply lex_eq; auto].
Qed.
Lemma lex_antisym : forall a b, lex_le a b -> lex_le b a -> a = b.
Proof. intros a b H. induction H; intro H'; inversion H'; subst; auto; try lia. f_equal. auto. Qed.
Lemma lex_total : forall a b, lex_le a b \/ lex_le b a.
Proof.
  induction a as [|x a IH]; intros b; [left; constructor|]. destruct b as [|y b]; [right; constructor|].
  destruct (N.lt_trichotomy x y) as [H|[H|H]]; [left; apply lex_lt; auto| |right; apply lex_lt; auto].
  subst. destruct (IH b); [left|right]; apply lex_eq; auto.
Qed.
Lemma strcasecmp_flip : forall a b, ~ In 0%N a -> ~ In 0%N b -> (0 <= strcasecmp a b <-> lex_le (fold_str true b) (fold_str true a)).
Proof.
  intros a b Ha Hb. destruct (strcasecmp_spec a b Ha Hb) as [E1 E2]. split; intro H.
  - destruct (lex_total (fold_str true b) (fold_str true a)) as [L|L]; auto. apply E2 in L. assert (E : strcasecmp a b = 0) by lia. apply E1 in E. rewrite E. apply lex_refl.
  - destruct (Z_le_gt_dec 0 (strcasecmp a b)) as [Hle|Hgt]; auto. assert (L : strcasecmp a b <= 0) by lia. apply E2 in L. pose proof (lex_antisym _ _ L H) as E. apply E1 in E. lia.
Qed.
Definition okt (t : tt) : Prop := ~ In 0%N (o_name t) /\ ~ In 0%N (o_file t).

(** the comparator of a mode is decided by an order *)
Record decided (cmp : tt -> tt -> Z) (le : tt -> tt -> Prop) (tie : tt -> tt -> bool) : Prop := mkdec {
  d_trans : forall a b c, okt a -> okt b -> okt c -> le a b -> le b c -> le a c;
  d_le : forall a b, okt a -> okt b -> (cmp a b <= 0 <-> le a b);
  d_ge : forall a b, okt a -> okt b -> (0 <= cmp a b <-> le b a);
  d_tie : forall x a b, okt a -> okt b -> tie x a = true -> tie x b = true -> cmp a b = 0 }.
Lemma name_decided : decided cmp_name name_le name_tie.
Proof.
  constructor; unfold cmp_name, name_le, name_tie, okt.
  - intros a b c _ _ _ H1 H2. eapply lex_trans; eauto.
  - intros a b [H1 _] [H2 _]. apply strcasecmp_spec; auto.
  - intros a b [H1 _] [H2 _]. apply strcasecmp_flip; auto.
  - intros x a b [H1 _] [H2 _] T1 T2. apply bytes_eqb_eq in T1, T2. apply strcasecmp_spec; auto. congruence.
Qed.
Lemma file_decided : decided cmp_file file_le file_tie.
Proof.
  constructor; unfold cmp_file, file_le, file_tie, okt.
  - intros a b c _ _ _ [H1 H2] [H3 H4]. split; [eapply lex_trans; eauto|]. intro E.
    assert (E1 : fold_str true (o_file a) = fold_str true (o_file b)). { apply lex_antisym; auto. rewrite E. auto. }
    specialize (H2 E1). rewrite E1 in E. specialize (H4 E). lia.
  - intros a b [_ H1] [_ H2]. cbv zeta. destruct (strcasecmp_spec _ _ H1 H2) as [E1 E2]. destruct (Z.eqb_spec (strcasecmp (o_file a) (o_file b)) 0) as [E|E]; cbn [negb].
    + assert (E' := E). apply E1 in E'. rewrite E'. split; intro H; [split; [apply lex_refl|lia]|]. destruct H as [_ H]. specialize (H eq_refl). lia.
    + rewrite E2. split; [intro H; split; auto; intro Z; apply E1 in Z; congruence|tauto].
  - intros a b [_ H1] [_ H2]. cbv zeta. destruct (strcasecmp_spec _ _ H1 H2) as [E1 E2]. pose proof (strcasecmp_flip _ _ H1 H2) as E3.
    destruct (Z.eqb_spec (strcasecmp (o_file a) (o_file b)) 0) as [E|E]; cbn [negb].
    + assert (E' := E). apply E1 in E'. rewrite E'. split; intro H; [split; [apply lex_refl|lia]|]. destruct H as [_ H]. specialize (H eq_refl). lia.
    + rewrite E3. split; [intro H; split; auto; intro Z; symmetry in Z; apply E1 in Z; congruence|tauto].
  - intros x a b [_ H1] [_ H2] T1 T2. apply andb_true_iff in T1, T2. destruct T1 as [T1 L1], T2 as [T2 L2]. apply bytes_eqb_eq in T1, T2. cbv zeta.
    destruct (strcasecmp_spec _ _ H1 H2) as [E1 _]. replace (strcasecmp (o_file a) (o_file b)) with 0 by (symmetry; apply E1; congruence). cbn. lia.
Qed.
Definition flip {A} (le : A -> A -> Prop) (a b : A) : Prop := le b a.
Lemma flip_decided : forall cmp le tie, decided cmp le tie -> decided (fun a b => cmp a b * -1) (flip le) tie.
Proof.
  intros cmp le tie [A B C D]. constructor; unfold flip.
  - intros a b c Ha Hb Hc H1 H2. apply (A c b a); auto.
  - intros a b Ha Hb. rewrite <- (C a b) by auto. lia.
  - intros a b Ha Hb. rewrite <- (B a b) by auto. lia.
  - intros x a b Ha Hb T1 T2. rewrite (D x a b); auto.
Qed.
Lemma mul1_decided : forall cmp le tie, decided cmp le tie -> decided (fun a b => cmp a b * 1) le tie.
Proof.
  intros cmp le tie [A B C D]. constructor; auto; intros; rewrite Z.mul_1_r; auto. eapply D; eauto.
Qed.

Lemma sort_decided : forall (A : Type) (f : A -> tt) cmp le tie l, decided cmp le tie -> Forall okt (map f l) ->
  sorted_by le tie (map f l) (map f (sort (fun a b => cmp (f a) (f b)) l)).
Proof.
  intros A f cmp le tie l [T L G Ti] H. rewrite Forall_map in H.
  assert (C : forall a b, okt (f a) -> okt (f b) -> ((0 <? cmp (f a) (f b)) = false -> le (f a) (f b)) /\ ((0 <? cmp (f a) (f b)) = true -> le (f b) (f a) /\ ~ le (f a) (f b))).
  { intros a b Ha Hb. split; intro E.
    - apply L; auto. lia.
    - split; [apply G; auto; lia|]. intro Z. apply L in Z; auto. lia. }
  split; [apply Permutation_map, sort_perm|]. split.
  - pose proof (sort_sorted (fun a b => cmp (f a) (f b)) (fun a => okt (f a)) (fun a b => le (f a) (f b))) as S.
    assert (S' : StronglySorted (fun a b => le (f a) (f b)) (sort (fun a b => cmp (f a) (f b)) l)).
    { apply S; auto. intros a b c Ha Hb Hc. apply T; auto. }
    clear - S'. induction S'; cbn; constructor; auto. rewrite Forall_map. auto.
  - intro x. assert (FM : forall l, filter (tie x) (map f l) = map f (filter (fun a => tie x (f a)) l)).
    { clear. induction l as [|a l IH]; cbn; auto. destruct (tie x (f a)); cbn; rewrite IH; auto. }
    rewrite !FM. f_equal.
    apply (sort_tie (fun a b => cmp (f a) (f b)) (fun a => okt (f a)) (fun a b => le (f a) (f b))); auto.
    + intros a b c Ha Hb Hc. apply T; auto.
    + intros a b Ha Hb T1 T2. rewrite (Ti x (f a) (f b)); auto.
Qed.
Lemma sort_all_decided : forall cmp le tie ss, decided cmp le tie -> c_strings ss -> all_sorted_by le tie ss (sort_all cmp ss).
Proof.
  intros cmp le tie ss D CS. unfold sort_all. split.
  - rewrite map_map. cbn [st]. apply sort_decided; auto. rewrite Forall_map, Forall_forall. intros s Is. apply CS. exists s. auto.
  - intros s' I. apply in_map_iff in I. destruct I as (s & <- & I). exists s. cbn [st u_cases].
    assert (Is : In s ss) by (apply (Permutation_in _ (Permutation_sym (sort_perm _ ss)) I)). split; auto. split; auto.
    apply sort_decided; auto. rewrite Forall_map, Forall_forall. intros c Ic. apply CS. exists s. split; auto. right. apply in_map. auto.
Qed.
Definition dir (o : shuffles) (le : tt -> tt -> Prop) (a b : tt) : Prop := if sh_reverse o then le b a else le a b.
Lemma shuffle_by_key : forall o r k ss, sh_random o = false -> c_strings ss ->
  (sh_name o = true -> exists ss', shuffle o r None k ss = Some (ss', O) /\ all_sorted_by (fun a b => if sh_reverse o then name_le b a else name_le a b) name_tie ss ss') /\
  (sh_name o = false -> sh_file o = true -> exists ss', shuffle o r None k ss = Some (ss', O) /\ all_sorted_by (fun a b => if sh_reverse o then file_le b a else file_le a b) file_tie ss ss').
Proof.
  intros [r0 n f v] r k ss R CS. cbn [sh_random sh_name sh_file sh_reverse] in *. subst r0. unfold shuffle. cbn [sh_any sh_random sh_name sh_file sh_reverse orb negb Nat.eqb length find_all fold_left].
  split.
  - intros ->. cbn [orb]. eexists. split; [reflexivity|]. unfold cmp_opt. cbn [sh_name sh_reverse]. destruct v.
    + apply (sort_all_decided _ _ _ ss (flip_decided _ _ _ name_decided) CS).
    + apply (sort_all_decided _ _ _ ss (mul1_decided _ _ _ name_decided) CS).
  - intros -> ->. cbn [orb]. eexists. split; [reflexivity|]. unfold cmp_opt. cbn [sh_name sh_file sh_reverse]. destruct v.
    + apply (sort_all_decided _ _ _ ss (flip_decided _ _ _ file_decided) CS).
    + apply (sort_all_decided _ _ _ ss (mul1_decided _ _ _ file_decided) CS).
Qed.

(** *** reverse of code order *)
Lemma sort_by_num : forall (A : Type) (f : A -> Z) l l', Permutation l l' -> StronglySorted (fun a b => f a < f b) l' -> sort (fun a b => f a - f b) l = l'.
Proof.
  intros A f l l' P S. apply sorted_unique with (f := f); auto.
  - eapply Permutation_trans; [apply Permutation_sym, sort_perm|]. auto.
  - apply (sort_sorted (fun a b => f a - f b) (fun _ => True) (fun a b => f a <= f b)).
    + intros; lia.
    + intros a b _ _. split; intro E; lia.
    + apply Forall_forall. auto.
Qed.
Lemma sort_ext : forall (A : Type) (c1 c2 : A -> A -> Z), (forall a b, (0 <? c1 a b) = (0 <? c2 a b)) -> forall l, sort c1 l = sort c2 l.
Proof.
  intros A c1 c2 E l. unfold sort. generalize (@nil A). induction l as [|x l IH]; intros m; cbn; auto. rewrite IH. f_equal.
  clear - E. induction m as [|q m IH]; cbn; auto. rewrite E, IH. auto.
Qed.
Lemma rev_sorted : forall (A : Type) (R : A -> A -> Prop) l, StronglySorted R l -> StronglySorted (fun a b => R b a) (rev l).
Proof.
  intros A R l S. induction S as [|a l S IH F]; cbn; [constructor|].
  assert (G : forall l1 x, StronglySorted (fun a b => R b a) l1 -> Forall (R x) l1 -> StronglySorted (fun a b => R b a) (l1 ++ [x])).
  { clear. intros l1 x S. induction S as [|b l1 S IH G]; intros F; cbn; [repeat constructor|]. inversion F; subst. constructor; auto. apply Forall_app. split; auto. }
  apply G; auto. apply Forall_rev. auto.
Qed.

Lemma reg_cases_spec : forall cs n s s' cs' n', reg_cases n s cs = (s', cs', n') ->
  n' = n + Z.of_nat (length cs) /\ StronglySorted (fun a b => o_seq (ct a) < o_seq (ct b)) cs' /\ Forall (fun c => n < o_seq (ct c) <= n') cs' /\ length cs' = length cs /\
  (cs <> [] -> o_seq s' = n').
Proof.
  induction cs as [|c cs IH]; intros n s s' cs' n' H; cbn [reg_cases] in H.
  - inversion H; subst. cbn. split; [lia|]. split; [constructor|]. split; [constructor|]. split; auto. congruence.
  - destruct (reg_cases (n + 1) (set_seq s (n + 1)) cs) as [[s1 cs1] n1] eqn:E. inversion H; subst. destruct (IH _ _ _ _ _ E) as (A & B & C & D & F). cbn [length]. split; [lia|].
    split; [constructor; auto; cbn; revert C; apply Forall_impl; intros; lia|]. split; [constructor; [cbn; lia|revert C; apply Forall_impl; intros; lia]|]. split; [lia|].
    intros _. destruct cs as [|c2 cs]; [cbn in E; inversion E; subst; cbn; lia|]. apply F. discriminate.
Qed.
Lemma reg_suites_sorted : forall ss n, (forall s, In s ss -> u_cases s <> []) ->
  StronglySorted (fun a b => o_seq (st a) < o_seq (st b)) (reg_suites n ss) /\ Forall (fun s => n < o_seq (st s)) (reg_suites n ss) /\
  Forall (fun s => StronglySorted (fun a b => o_seq (ct a) < o_seq (ct b)) (u_cases s) /\ Forall (fun c => n < o_seq (ct c)) (u_cases s)) (reg_suites n ss).
Proof.
  induction ss as [|s ss IH]; intros n H; cbn [reg_suites]; [split; [constructor|split; constructor]|].
  destruct (reg_cases n (st s) (u_cases s)) as [[t cs] n'] eqn:E. apply reg_cases_spec in E. destruct E as (A & B & C & D & F).
  assert (Ne : u_cases s <> []) by (apply H; left; auto). specialize (F Ne).
  assert (L : n < n') by (destruct (u_cases s); [congruence|cbn [length] in A; lia]).
  destruct (IH n') as (I1 & I2 & I3); [intros; apply H; right; auto|]. split; [|split].
  - constructor; auto. cbn [st]. rewrite F. auto.
  - constructor; [cbn [st]; lia|]. revert I2. apply Forall_impl. intros; lia.
  - constructor; [cbn [u_cases]; split; auto; revert C; apply Forall_impl; intros; lia|]. revert I3. apply Forall_impl. intros a [P1 P2]. split; auto. revert P2. apply Forall_impl. intros; lia.
Qed.

Lemma F2_rev : forall (A B : Type) (R : A -> B -> Prop) l l', Forall2 R l l' -> Forall2 R (rev l) (rev l').
Proof. intros. induction H; cbn; [constructor|]. apply Forall2_app; auto. Qed.
Lemma reverse_order : forall r k ss cur, (forall s, In s ss -> u_cases s <> []) -> arrangement (reg_suites seq0 ss) cur ->
  shuffle (mksh false false false true) r None k cur = Some (rev (map (fun s => mkts (st s) (rev (u_cases s))) (reg_suites seq0 ss)), O).
Proof.
  intros r k ss cur Ne (mid & F & P). unfold shuffle. cbn [sh_any sh_random sh_name sh_file sh_reverse orb negb Nat.eqb length find_all fold_left]. do 2 f_equal.
  destruct (reg_suites_sorted ss seq0 Ne) as (S1 & _ & S2). set (R := reg_suites seq0 ss) in *. unfold sort_all.
  assert (Sm : StronglySorted (fun a b => o_seq (st a) < o_seq (st b)) mid).
  { clear - F S1. revert F. revert mid. induction S1 as [|a l S IH G]; intros mid F; inversion F; subst; constructor; auto. destruct H1 as [Eq _]. rewrite <- Eq.
    clear - H3 G. revert G. induction H3; intros G; constructor; inversion G; subst; auto. destruct H as [<- _]. auto. }
  rewrite (sort_ext _ _ (fun a b => (- o_seq (st a)) - (- o_seq (st b)))) by (intros; unfold cmp_opt, cmp_seq; cbn; f_equal; lia).
  rewrite (sort_by_num _ (fun s => - o_seq (st s)) cur (rev mid)).
  - rewrite <- map_rev. apply F2_rev in F. assert (S2' : Forall (fun s => StronglySorted (fun a b => o_seq (ct a) < o_seq (ct b)) (u_cases s)) (rev R)).
    { apply Forall_rev. revert S2. apply Forall_impl. intros a [H _]. auto. }
    clear - F S2'. revert S2'. induction F as [|s m l l' [E1 E2] F IH]; intro S2'; cbn [map]; auto. inversion S2' as [|? ? Sa Sb]; subst. rewrite IH by auto. f_equal. rewrite E1. f_equal.
    rewrite (sort_ext _ _ (fun a b => (- o_seq (ct a)) - (- o_seq (ct b)))) by (intros; unfold cmp_opt, cmp_seq; cbn; f_equal; lia).
    apply (sort_by_num _ (fun c => - o_seq (ct c))).
    + eapply Permutation_trans; [apply Permutation_sym; exact E2|]. apply Permutation_rev.
    + apply rev_sorted in Sa. clear - Sa. induction Sa; constructor; auto. revert H. apply Forall_impl. intros; lia.
  - eapply Permutation_trans; [apply Permutation_sym; exact P|]. apply Permutation_rev.
  - apply rev_sorted in Sm. clear - Sm. induction Sm; constructor; auto. revert H. apply Forall_impl. intros; lia.
Qed.
