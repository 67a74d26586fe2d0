From Coq Require Import List NArith Bool Arith Lia.
From Verif Require Import Base StrModel FilterModel SplitModel SplitSpec.
Import ListNotations.
Local Open Scope N_scope.

Lemma isspace_blank c : isspace c = true <-> blank c.
Proof.
  unfold isspace, blank. rewrite orb_true_iff, andb_true_iff, N.eqb_eq, !N.leb_le. tauto.
Qed.
Lemma strip_left_ok s : trimmed_begin s (strip_left s).
Proof.
  induction s as [|c s IH]; cbn.
  - exists []. split; [reflexivity|]. split; [constructor|]. discriminate.
  - destruct (isspace c) eqn:E.
    + destruct IH as (w & H1 & H2 & H3). exists (c :: w). split; [cbn; congruence|]. split.
      * constructor; [apply isspace_blank, E|exact H2].
      * exact H3.
    + exists []. split; [reflexivity|]. split; [constructor|]. intros t' x H. inversion H; subst. rewrite <- isspace_blank. congruence.
Qed.
Lemma strip_right_ok s : trimmed_end s (strip_right s).
Proof.
  unfold strip_right. destruct (strip_left_ok (rev s)) as (w & H1 & H2 & H3). exists (rev w). split; [|split].
  - rewrite <- rev_app_distr, <- H1. symmetry; apply rev_involutive.
  - apply Forall_rev, H2.
  - intros t' c H. apply (H3 (rev t')). rewrite <- (rev_involutive (strip_left (rev s))), H, rev_app_distr. reflexivity.
Qed.

(** quotes and parity *)
Lemma prefixb_iff p : forall s, prefixb p s = true <-> exists r, s = p ++ r.
Proof.
  induction p as [|c p IH]; intros s; cbn.
  - split; [exists s; reflexivity|reflexivity].
  - destruct s as [|x s]; [split; [discriminate|intros (r & H); discriminate]|].
    rewrite andb_true_iff, N.eqb_eq, IH. split.
    + intros (-> & r & ->). exists r. reflexivity.
    + intros (r & H). inversion H; subst. split; [reflexivity|]. exists r. reflexivity.
Qed.
(** parity, with a state at the beginning *)
Definition par (q : bool) (l : bytes) : bool := xorb q (Nat.odd (quotes l)).
Lemma par_cons q c l : par q (c :: l) = par (if c =? 34 then negb q else q) l.
Proof.
  unfold par, quotes. cbn [count_occ]. destruct (N.eq_dec c 34) as [->|n].
  - rewrite N.eqb_refl, Nat.odd_succ, <- Nat.negb_odd. destruct q, (Nat.odd _); reflexivity.
  - apply N.eqb_neq in n. rewrite n. reflexivity.
Qed.
Lemma outside_par l : outside l <-> par false l = false.
Proof. unfold outside, par. rewrite <- Nat.negb_odd. destruct (Nat.odd _); cbn; split; congruence. Qed.

Lemma find_two_sound op q s l : op <> [] -> (forall r, op <> 34 :: r) -> find_two op q s = Some l ->
  par q l = false /\ (exists r, s = l ++ op ++ r) /\
  forall l' r', s = l' ++ op ++ r' -> par q l' = false -> (length l <= length l')%nat.
Proof.
  intros Hn Hq. revert q l. induction s as [|c s IH]; intros q l H; [discriminate|].
  cbn [find_two] in H. set (q' := if c =? 34 then negb q else q) in *.
  destruct (negb q' && prefixb op (c :: s)) eqn:E.
  - inversion H; subst l. apply andb_true_iff in E. destruct E as [E1 E2]. apply prefixb_iff in E2. destruct E2 as [r E2].
    split; [|split].
    + assert (q' = q) as Hqq. { unfold q'. destruct (N.eqb_spec c 34) as [->|]; [|reflexivity]. destruct op as [|o op]; [congruence|]. inversion E2; subst. exfalso. eapply Hq; reflexivity. }
      rewrite Hqq in E1. unfold par; cbn. rewrite xorb_false_r. destruct q; [discriminate|reflexivity].
    + exists r. exact E2.
    + intros; cbn; lia.
  - destruct (find_two op q' s) as [m|] eqn:F; [|discriminate]. inversion H; subst l. destruct (IH _ _ F) as (A & (r & B) & D).
    split; [|split].
    + rewrite par_cons. exact A.
    + exists r. rewrite B. reflexivity.
    + intros [|x l'] r' Hs Hp.
      * exfalso. cbn in Hs. unfold par in Hp; cbn in Hp. rewrite xorb_false_r in Hp. subst q.
        assert (c <> 34) as Hc. { intros ->. destruct op as [|o op]; [congruence|]. inversion Hs; subst. eapply Hq; reflexivity. }
        apply N.eqb_neq in Hc. unfold q' in E. rewrite Hc in E. cbn [negb andb] in E.
        assert (prefixb op (c :: s) = true) by (apply prefixb_iff; exists r'; exact Hs). congruence.
      * cbn in Hs. inversion Hs; subst x. cbn. apply le_n_S. apply (D l' r'); [assumption|]. rewrite par_cons in Hp. exact Hp.
Qed.
Lemma find_two_none op q s : op <> [] -> (forall r, op <> 34 :: r) -> find_two op q s = None ->
  forall l' r', s = l' ++ op ++ r' -> par q l' = true.
Proof.
  intros Hn Hq. revert q. induction s as [|c s IH]; intros q H l' r' Hs.
  - destruct l'; [destruct op; [congruence|discriminate]|discriminate].
  - cbn [find_two] in H. set (q' := if c =? 34 then negb q else q) in *.
    destruct (negb q' && prefixb op (c :: s)) eqn:E; [discriminate|].
    destruct (find_two op q' s) eqn:F; [discriminate|].
    destruct l' as [|x l'].
    + cbn in Hs. unfold par; cbn. rewrite xorb_false_r. destruct q; [reflexivity|].
      assert (c <> 34) as Hc. { intros ->. destruct op as [|o op]; [congruence|]. inversion Hs; subst. exfalso; eapply Hq; reflexivity. }
      apply N.eqb_neq in Hc. unfold q' in E. rewrite Hc in E. cbn [negb andb] in E.
      assert (prefixb op (c :: s) = true) by (apply prefixb_iff; exists r'; exact Hs). congruence.
    + cbn in Hs. inversion Hs; subst x. rewrite par_cons. fold q'. eapply IH; [exact F|eassumption].
Qed.

Lemma find_one_sound o x q k s l : o <> 34 -> x <> 34 -> o <> x -> find_one o x q k s = Some l ->
  par q l = false /\ (exists r, s = l ++ [x] ++ r) /\ (k + times o q l = times x q l)%nat /\
  forall l' r', s = l' ++ [x] ++ r' -> par q l' = false -> (k + times o q l' = times x q l')%nat -> (length l <= length l')%nat.
Proof.
  intros Ho Hx Hox. revert q k l. induction s as [|c s IH]; intros q k l H; [discriminate|].
  cbn [find_one] in H. set (q' := if c =? 34 then negb q else q) in *.
  assert (Tc : forall y l0, times y q (c :: l0) = Nat.add (if (c =? y) && negb (c =? 34) && negb q then 1%nat else 0%nat) (times y q' l0)).
  { intros y l0. cbn [times]. unfold q'. destruct (c =? 34); [rewrite andb_false_r; reflexivity|]. rewrite andb_true_r. reflexivity. }
  destruct (negb q' && (c =? x)) eqn:E.
  - apply andb_true_iff in E. destruct E as [E1 E2]. apply N.eqb_eq in E2. subst c.
    assert (x =? 34 = false) as E34 by (apply N.eqb_neq; exact Hx). assert (q' = q) as Hqq by (unfold q'; rewrite E34; reflexivity).
    assert (q = false) as Hqf by (rewrite <- Hqq; destruct q'; [discriminate|reflexivity]).
    assert (x =? o = false) as Exo by (apply N.eqb_neq; congruence). rewrite Exo, andb_false_r in H.
    destruct k as [|k].
    + inversion H; subst l. split; [rewrite Hqf; reflexivity|]. split; [exists s; reflexivity|]. split; [reflexivity|]. intros; cbn; lia.
    + destruct (find_one o x q' k s) as [m|] eqn:F; [|discriminate]. inversion H; subst l.
      destruct (IH _ _ _ F) as (A & (r & B) & C & D). split; [rewrite par_cons; exact A|]. split; [exists r; rewrite B; reflexivity|].
      split.
      * rewrite !Tc, Exo, N.eqb_refl, E34, Hqf. cbn [andb negb]. rewrite Hqq, Hqf in *. lia.
      * intros [|y l'] r' Hs Hp Ht; [cbn in Ht; lia|]. cbn in Hs. inversion Hs; subst y. cbn. apply le_n_S.
        apply (D l' r'); [assumption| |]; [rewrite par_cons in Hp; exact Hp|].
        rewrite !Tc, Exo, N.eqb_refl, E34, Hqf in Ht. cbn [andb negb] in Ht. rewrite Hqq, Hqf in *. lia.
  - set (k' := if negb q' && (c =? o) then S k else k) in *.
    destruct (find_one o x q' k' s) as [m|] eqn:F; [|discriminate]. inversion H; subst l.
    destruct (IH _ _ _ F) as (A & (r & B) & C & D).
    assert (Hk : forall l0, (k + times o q (c :: l0) = times x q (c :: l0) <-> k' + times o q' l0 = times x q' l0)%nat).
    { intros l0. rewrite !Tc. unfold k', q' in *. destruct (N.eqb_spec c 34) as [->|n].
      - cbn [negb]. rewrite !andb_false_r in *. cbn [andb].
        assert (34 =? o = false) as -> by (apply N.eqb_neq; congruence). rewrite andb_false_r. tauto.
      - cbn [negb]. rewrite !andb_true_r. destruct q; cbn [negb andb] in *; rewrite ?andb_false_r, ?andb_true_r in *; [tauto|].
        rewrite E. destruct (c =? o); lia. }
    split; [rewrite par_cons; exact A|]. split; [exists r; rewrite B; reflexivity|]. split; [apply Hk; exact C|].
    intros [|y l'] r' Hs Hp Ht.
    + exfalso. cbn in Hs. inversion Hs; subst c. unfold par in Hp; cbn in Hp. rewrite xorb_false_r in Hp. subst q.
      unfold q' in E. assert (x =? 34 = false) as E34 by (apply N.eqb_neq; exact Hx). rewrite E34, N.eqb_refl in E. discriminate.
    + cbn in Hs. inversion Hs; subst y. cbn. apply le_n_S. apply (D l' r'); [assumption| |].
      * rewrite par_cons in Hp. exact Hp.
      * apply Hk. exact Ht.
Qed.
Lemma find_one_none o x q k s : o <> 34 -> x <> 34 -> o <> x -> find_one o x q k s = None ->
  forall l' r', s = l' ++ [x] ++ r' -> par q l' = false -> (k + times o q l' = times x q l')%nat -> False.
Proof.
  intros Ho Hx Hox. revert q k. induction s as [|c s IH]; intros q k H l' r' Hs Hp Ht; [destruct l'; discriminate|].
  cbn [find_one] in H. set (q' := if c =? 34 then negb q else q) in *.
  assert (Tc : forall y l0, times y q (c :: l0) = Nat.add (if (c =? y) && negb (c =? 34) && negb q then 1%nat else 0%nat) (times y q' l0)).
  { intros y l0. cbn [times]. unfold q'. destruct (c =? 34); [rewrite andb_false_r; reflexivity|]. rewrite andb_true_r. reflexivity. }
  destruct (negb q' && (c =? x)) eqn:E.
  - apply andb_true_iff in E. destruct E as [E1 E2]. apply N.eqb_eq in E2. subst c.
    assert (x =? 34 = false) as E34 by (apply N.eqb_neq; exact Hx). assert (q' = q) as Hqq by (unfold q'; rewrite E34; reflexivity).
    assert (q = false) as Hqf by (rewrite <- Hqq; destruct q'; [discriminate|reflexivity]).
    assert (x =? o = false) as Exo by (apply N.eqb_neq; congruence). rewrite Exo, andb_false_r in H.
    destruct k as [|k]; [discriminate|]. destruct (find_one o x q' k s) as [m|] eqn:F; [discriminate|].
    destruct l' as [|y l']; [cbn in Ht; lia|]. cbn in Hs. inversion Hs; subst y.
    eapply (IH _ _ F l' r'); [assumption|rewrite par_cons in Hp; exact Hp|].
    rewrite !Tc, Exo, N.eqb_refl, E34, Hqf in Ht. cbn [andb negb] in Ht. rewrite Hqq, Hqf in *. lia.
  - set (k' := if negb q' && (c =? o) then S k else k) in *.
    destruct (find_one o x q' k' s) as [m|] eqn:F; [discriminate|].
    destruct l' as [|y l'].
    + cbn in Hs. inversion Hs; subst c. unfold par in Hp; cbn in Hp. rewrite xorb_false_r in Hp. subst q.
      unfold q' in E. assert (x =? 34 = false) as E34 by (apply N.eqb_neq; exact Hx). rewrite E34, N.eqb_refl in E. discriminate.
    + cbn in Hs. inversion Hs; subst y. eapply (IH _ _ F l' r'); [assumption|rewrite par_cons in Hp; exact Hp|].
      rewrite !Tc in Ht. unfold k', q' in *. destruct (N.eqb_spec c 34) as [->|n].
      * cbn [negb] in *. rewrite !andb_false_r in *. cbn [andb] in *.
        assert (34 =? o = false) as -> by (apply N.eqb_neq; congruence). rewrite andb_false_r. exact Ht.
      * cbn [negb] in *. rewrite !andb_true_r in *. destruct q; cbn [negb andb] in *; rewrite ?andb_false_r, ?andb_true_r in *; [exact Ht|].
        rewrite E in Ht. destruct (c =? o); lia.
Qed.

(** literals read backwards *)
Lemma quotes_app a b : quotes (a ++ b) = (quotes a + quotes b)%nat.
Proof. apply count_occ_app. Qed.
Lemma quotes_rev a : quotes (rev a) = quotes a.
Proof. induction a as [|c a IH]; [reflexivity|]. cbn [rev]. rewrite quotes_app, IH. unfold quotes. cbn. destruct (N.eq_dec c 34); lia. Qed.
Lemma par_app q a b : par q (a ++ b) = par (par q a) b.
Proof. unfold par. rewrite quotes_app, Nat.odd_add, xorb_assoc. reflexivity. Qed.
Lemma times_app c q a b : times c q (a ++ b) = (times c q a + times c (par q a) b)%nat.
Proof.
  revert q. induction a as [|x a IH]; intros q; cbn [app times].
  - unfold par; cbn. rewrite xorb_false_r. reflexivity.
  - rewrite par_cons. destruct (x =? 34); rewrite IH; lia.
Qed.
Lemma times_rev c q a : c <> 34 -> times c q (rev a) = times c (par q a) a.
Proof.
  intros Hc. revert q. induction a as [|x a IH]; intros q; [reflexivity|].
  cbn [rev]. rewrite times_app, IH.
  assert (par q (rev a) = par q a) as -> by (unfold par; rewrite quotes_rev; reflexivity).
  rewrite par_cons. cbn [times]. destruct (N.eqb_spec x 34) as [->|n].
  - assert (par (negb q) a = negb (par q a)) as -> by (unfold par; destruct q, (Nat.odd _); reflexivity).
    rewrite negb_involutive. lia.
  - lia.
Qed.
Lemma outside_rev a : outside (rev a) <-> outside a.
Proof. unfold outside. rewrite quotes_rev. tauto. Qed.
Lemma times_rev_outside c a : c <> 34 -> outside a -> times c false (rev a) = times c false a.
Proof. intros Hc H. rewrite times_rev by exact Hc. apply outside_par in H. rewrite H. reflexivity. Qed.

(** the sides *)
Lemma skip_two {A} (l op r : list A) : skipn (length l + length op) (l ++ op ++ r) = r.
Proof. rewrite app_assoc, <- app_length, skipn_app, skipn_all, Nat.sub_diag. reflexivity. Qed.
Lemma append_same (op l r l' r' : bytes) : l ++ op ++ r = l' ++ op ++ r' -> length l = length l' -> l = l' /\ r = r'.
Proof.
  revert l'. induction l as [|c l IH]; intros [|c' l'] H Hl; cbn in *; try discriminate.
  - split; [reflexivity|]. apply app_inv_head in H. exact H.
  - inversion H. subst. destruct (IH l') as [-> ->]; auto.
Qed.

Lemma two_op_facts op : two_op op -> op <> [] /\ (forall r, op <> 34 :: r) /\ length op = 2%nat.
Proof. intros [->|[->|[->| ->]]]; (split; [discriminate|split; [discriminate|reflexivity]]). Qed.

Lemma find_compare_two s op : two_op op -> find_compare s op = find_two op false s.
Proof. intros [->|[->|[->| ->]]]; reflexivity. Qed.
Lemma failing_two s op e : two_op op -> failing_expressions op e s = split_compare s op e s.
Proof. intros [->|[->|[->| ->]]]; reflexivity. Qed.

Lemma split_two s op e l r :
  two_op op -> occurs op s l r -> (forall l' r', occurs op s l' r' -> (length l <= length l')%nat) ->
  trimmed_end l (fst (failing_expressions op e s)) /\ trimmed_begin r (snd (failing_expressions op e s)).
Proof.
  intros Ht (Hs & Ho) Hf. destruct (two_op_facts op Ht) as (Hn & Hq & _). rewrite failing_two by exact Ht.
  unfold split_compare. rewrite find_compare_two by exact Ht.
  destruct (find_two op false s) as [m|] eqn:F.
  - destruct (find_two_sound op false s m Hn Hq F) as (A & (r' & B) & D).
    assert (m = l /\ r' = r) as (-> & ->).
    { apply (append_same op); [congruence|]. apply Nat.le_antisymm.
      - apply (D l r); [exact Hs|]. apply outside_par, Ho.
      - apply (Hf m r'). split; [exact B|]. apply outside_par, A. }
    cbn [fst snd]. split; [apply strip_right_ok|]. rewrite Hs, skip_two. apply strip_left_ok.
  - exfalso. apply outside_par in Ho. rewrite (find_two_none op false s Hn Hq F l r Hs) in Ho. discriminate.
Qed.
Lemma split_two_none s op e : two_op op -> (forall l r, ~ occurs op s l r) -> failing_expressions op e s = (e, s).
Proof.
  intros Ht Hf. destruct (two_op_facts op Ht) as (Hn & Hq & _). rewrite failing_two by exact Ht.
  unfold split_compare. rewrite find_compare_two by exact Ht.
  destruct (find_two op false s) as [m|] eqn:F; [|reflexivity].
  destruct (find_two_sound op false s m Hn Hq F) as (A & (r' & B) & D). exfalso. apply (Hf m r'). split; [exact B|]. apply outside_par, A.
Qed.

Lemma split_gt s e l r :
  free_gt s l r -> (forall l' r', free_gt s l' r' -> (length l <= length l')%nat) ->
  trimmed_end l (fst (failing_expressions [62] e s)) /\ trimmed_begin r (snd (failing_expressions [62] e s)).
Proof.
  intros ((Hs & Ho) & Hb) Hf. unfold failing_expressions, split_compare, find_compare. cbn [N.eqb Pos.eqb].
  destruct (find_one 60 62 false 0 s) as [m|] eqn:F.
  - destruct (find_one_sound 60 62 false 0 s m) as (A & (r' & B) & C & D); [discriminate|discriminate|discriminate|exact F|].
    assert (m = l /\ r' = r) as (-> & ->).
    { apply (append_same [62]); [congruence|]. apply Nat.le_antisymm.
      - apply (D l r); [exact Hs| |]; [apply outside_par, Ho|exact Hb].
      - apply (Hf m r'). split; [|exact C]. split; [exact B|]. apply outside_par, A. }
    cbn [fst snd]. split; [apply strip_right_ok|]. rewrite Hs, skip_two. apply strip_left_ok.
  - exfalso. eapply (find_one_none 60 62 false 0 s); [discriminate|discriminate|discriminate|exact F|exact Hs|apply outside_par, Ho|exact Hb].
Qed.
Lemma split_gt_none s e : (forall l r, ~ free_gt s l r) -> failing_expressions [62] e s = (e, s).
Proof.
  intros Hf. unfold failing_expressions, split_compare, find_compare. cbn [N.eqb Pos.eqb].
  destruct (find_one 60 62 false 0 s) as [m|] eqn:F; [|reflexivity].
  destruct (find_one_sound 60 62 false 0 s m) as (A & (r' & B) & C & D); [discriminate|discriminate|discriminate|exact F|].
  exfalso. apply (Hf m r'). split; [|exact C]. split; [exact B|]. apply outside_par, A.
Qed.

Lemma rev_mid {A} (l r : list A) (x : A) : rev (l ++ [x] ++ r) = rev r ++ [x] ++ rev l.
Proof. rewrite !rev_app_distr. cbn. rewrite <- app_assoc. reflexivity. Qed.
Lemma split_lt s e l r :
  free_lt s l r -> (forall l' r', free_lt s l' r' -> (length l' <= length l)%nat) ->
  trimmed_end l (fst (failing_expressions [60] e s)) /\ trimmed_begin r (snd (failing_expressions [60] e s)).
Proof.
  intros (Hs & Ho & Hb) Hf. unfold failing_expressions, split_compare, find_compare. cbn [N.eqb Pos.eqb].
  destruct (find_one 62 60 false 0 (rev s)) as [m|] eqn:F; cbn [option_map].
  - destruct (find_one_sound 62 60 false 0 (rev s) m) as (A & (r' & B) & C & D); [discriminate|discriminate|discriminate|exact F|].
    assert (Hs' : s = rev r' ++ [60] ++ rev m).
    { rewrite <- (rev_involutive s), B. apply rev_mid. }
    apply outside_par in A. cbn [Nat.add] in C.
    assert (length m = length r) as El.
    { apply Nat.le_antisymm.
      - rewrite <- (rev_length r). apply (D (rev r) (rev l)).
        + rewrite Hs. apply rev_mid.
        + apply outside_par, outside_rev, Ho.
        + cbn [Nat.add]. rewrite !times_rev_outside by (exact Ho || discriminate). symmetry; exact Hb.
      - assert (free_lt s (rev r') (rev m)) as G.
        { split; [exact Hs'|]. split; [apply outside_rev, A|]. rewrite !times_rev_outside by (exact A || discriminate). symmetry; exact C. }
        apply Hf in G. rewrite rev_length in G. apply (f_equal (@length N)) in Hs. apply (f_equal (@length N)) in Hs'.
        rewrite !app_length, ?rev_length in Hs, Hs'. cbn in Hs, Hs'. rewrite !rev_length in Hs'. lia. }
    assert (firstn (length s - length m - 1) s = l) as ->.
    { rewrite Hs at 2. replace (length s - length m - 1)%nat with (length l + 0)%nat.
      - rewrite firstn_app_2. cbn. apply app_nil_r.
      - rewrite Hs, !app_length, El. cbn. lia. }
    cbn [fst snd]. split; [apply strip_right_ok|]. rewrite Hs, skip_two. apply strip_left_ok.
  - exfalso. eapply (find_one_none 62 60 false 0 (rev s)) with (l' := rev r) (r' := rev l); [discriminate|discriminate|discriminate|exact F| | |].
    + rewrite Hs. apply rev_mid.
    + apply outside_par, outside_rev, Ho.
    + cbn [Nat.add]. rewrite !times_rev_outside by (exact Ho || discriminate). symmetry; exact Hb.
Qed.
Lemma split_lt_none s e : (forall l r, ~ free_lt s l r) -> failing_expressions [60] e s = (e, s).
Proof.
  intros Hf. unfold failing_expressions, split_compare, find_compare. cbn [N.eqb Pos.eqb].
  destruct (find_one 62 60 false 0 (rev s)) as [m|] eqn:F; cbn [option_map]; [|reflexivity].
  destruct (find_one_sound 62 60 false 0 (rev s) m) as (A & (r' & B) & C & D); [discriminate|discriminate|discriminate|exact F|].
  exfalso. apply outside_par in A. apply (Hf (rev r') (rev m)). split; [|split].
  - rewrite <- (rev_involutive s), B. apply rev_mid.
  - apply outside_rev, A.
  - rewrite !times_rev_outside by (exact A || discriminate). symmetry; exact C.
Qed.

(** paired expressions *)
Lemma literal_quotes q : ~ In 34 q -> quotes q = 0%nat.
Proof. intros H. apply count_occ_not_In. exact H. Qed.
Lemma times_literal c q : ~ In 34 q -> times c true q = 0%nat.
Proof.
  induction q as [|x q IH]; intros H; [reflexivity|]. cbn [times].
  assert (x =? 34 = false) as -> by (apply N.eqb_neq; intros ->; apply H; left; reflexivity).
  rewrite andb_false_r. cbn. apply IH. intros G; apply H; right; exact G.
Qed.
Lemma paired_ends s : paired s -> par false s = false /\ times 60 false s = times 62 false s.
Proof.
  intros H. induction H as [|c s H1 H2 H3 H IH|q s Hq H IH|a s Ha IHa Hs IHs].
  - split; reflexivity.
  - destruct IH as (A & B). apply N.eqb_neq in H1, H2, H3. rewrite par_cons. cbn [times]. rewrite H1, H2, H3. split; assumption.
  - destruct IH as (A & B). change (34 :: q ++ 34 :: s) with ([34] ++ q ++ [34] ++ s).
    rewrite !par_app, !times_app. change (par false [34]) with true.
    assert (par true q = true) as -> by (unfold par; rewrite literal_quotes by exact Hq; reflexivity).
    change (par true [34]) with false. rewrite (times_literal 60), (times_literal 62) by exact Hq. split; [exact A|]. cbn. exact B.
  - destruct IHa as (A & B). destruct IHs as (C & D). change (60 :: a ++ 62 :: s) with ([60] ++ a ++ [62] ++ s).
    rewrite !par_app, !times_app. change (par false [60]) with false. rewrite A. change (par false [62]) with false. split; [exact C|].
    cbn. lia.
Qed.
(** no greater sign in it is free *)
Lemma prefix_cases {A} (l : list A) x r a b : l ++ x :: r = a ++ b ->
  (exists r1, a = l ++ x :: r1 /\ r = r1 ++ b) \/ (exists l1, l = a ++ l1 /\ b = l1 ++ x :: r).
Proof.
  revert a. induction l as [|y l IH]; intros [|z a] H; cbn in *.
  - right. exists []. split; [reflexivity|symmetry; exact H].
  - inversion H; subst. left. exists a. split; reflexivity.
  - right. exists (y :: l). split; [reflexivity|symmetry; exact H].
  - inversion H; subst. destruct (IH a H2) as [(r1 & -> & ->)|(l1 & -> & ->)]; [left; exists r1|right; exists l1]; split; reflexivity.
Qed.
Lemma paired_no_free s : paired s ->
  forall l r, s = l ++ 62 :: r -> par false l = false -> (times 62 false l < times 60 false l)%nat.
Proof.
  intros H. induction H as [|c s H1 H2 H3 H IH|q s Hq H IH|a s Ha IHa Hs IHs]; intros l r E Hp.
  - destruct l; discriminate.
  - destruct l as [|x l]; inversion E; subst; [congruence|]. apply N.eqb_neq in H1, H2, H3. rewrite par_cons, H1 in Hp.
    cbn [times]. rewrite H1, H2, H3. cbn. eapply IH; [reflexivity|exact Hp].
  - symmetry in E. change (34 :: q ++ 34 :: s) with ((34 :: q) ++ (34 :: s)) in E.
    destruct (prefix_cases _ _ _ _ _ E) as [(r1 & E1 & _)|(l1 & -> & E2)].
    + exfalso. destruct l as [|x l]; [discriminate|]. inversion E1; subst x q. rewrite par_cons in Hp. cbn [N.eqb Pos.eqb negb] in Hp.
      assert (~ In 34 l) as Hl by (intros G; apply Hq, in_app_iff; left; exact G).
      unfold par in Hp. rewrite literal_quotes in Hp by exact Hl. discriminate.
    + destruct l1 as [|x l1]; [discriminate|]. inversion E2; subst x s.
      assert (par false (34 :: q) = true) as Eq by (rewrite par_cons; cbn; unfold par; rewrite literal_quotes by exact Hq; reflexivity).
      rewrite par_app, Eq, par_cons in Hp. cbn [N.eqb Pos.eqb negb] in Hp. rewrite !times_app, Eq. cbn [times N.eqb Pos.eqb negb].
      rewrite (times_literal 60), (times_literal 62) by exact Hq. cbn [Nat.add]. eapply IH; [reflexivity|exact Hp].
  - destruct (paired_ends a Ha) as (A & B). destruct l as [|x l]; inversion E; subst x.
    rewrite par_cons in Hp. cbn [N.eqb Pos.eqb negb] in Hp. cbn [times N.eqb Pos.eqb andb negb].
    symmetry in H1. destruct (prefix_cases _ _ _ _ _ H1) as [(r1 & -> & _)|(l1 & -> & E2)].
    + assert (times 62 false l < times 60 false l)%nat by (eapply IHa; [reflexivity|exact Hp]). lia.
    + rewrite par_app, A in Hp. rewrite !times_app, A. destruct l1 as [|y l1].
      * cbn [times]. lia.
      * inversion E2; subst y. rewrite par_cons in Hp. cbn [N.eqb Pos.eqb negb] in Hp. cbn [times N.eqb Pos.eqb andb negb].
        assert (times 62 false l1 < times 60 false l1)%nat by (eapply IHs; [eassumption|exact Hp]). lia.
Qed.
(** nor a less sign, seen from the end *)
Lemma paired_no_free_lt s : paired s ->
  forall l r, s = l ++ 60 :: r -> outside r -> (times 60 false r < times 62 false r)%nat.
Proof.
  intros H l r E Hr. destruct (paired_ends s H) as (A & B). apply outside_par in Hr.
  assert (par false l = false) as Hl.
  { rewrite E in A. change (l ++ 60 :: r) with (l ++ [60] ++ r) in A. rewrite !par_app in A.
    unfold par in A at 1. rewrite <- A. unfold par in *. cbn in *. destruct (Nat.odd (quotes l)), (Nat.odd (quotes r)); cbn in *; congruence. }
  assert (times 62 false l <= times 60 false l)%nat as Hle.
  { clear - H E Hl. revert l r E Hl. induction H as [|c s H1 H2 H3 H IH|q s Hq H IH|a s Ha IHa Hs IHs]; intros l r E Hp.
    - destruct l; [cbn; lia|discriminate].
    - destruct l as [|x l]; [cbn; lia|]. inversion E; subst. apply N.eqb_neq in H1, H2, H3. rewrite par_cons, H1 in Hp.
      cbn [times]. rewrite H1, H2, H3. cbn. eapply IH; [reflexivity|exact Hp].
    - symmetry in E. change (34 :: q ++ 34 :: s) with ((34 :: q) ++ (34 :: s)) in E.
      destruct (prefix_cases _ _ _ _ _ E) as [(r1 & E1 & _)|(l1 & -> & E2)].
      + exfalso. destruct l as [|x l]; [discriminate|]. inversion E1; subst x q. rewrite par_cons in Hp. cbn [N.eqb Pos.eqb negb] in Hp.
        assert (~ In 34 l) as Hl by (intros G; apply Hq, in_app_iff; left; exact G).
        unfold par in Hp. rewrite literal_quotes in Hp by exact Hl. discriminate.
      + destruct l1 as [|x l1]; [discriminate|]. inversion E2; subst x s.
        assert (par false (34 :: q) = true) as Eq by (rewrite par_cons; cbn; unfold par; rewrite literal_quotes by exact Hq; reflexivity).
        rewrite par_app, Eq, par_cons in Hp. cbn [N.eqb Pos.eqb negb] in Hp. rewrite !times_app, Eq. cbn [times N.eqb Pos.eqb negb].
        rewrite (times_literal 60), (times_literal 62) by exact Hq. cbn [Nat.add]. eapply IH; [reflexivity|exact Hp].
    - destruct (paired_ends a Ha) as (A & B). destruct l as [|x l]; [cbn; lia|]. inversion E; subst x.
      rewrite par_cons in Hp. cbn [N.eqb Pos.eqb negb] in Hp. cbn [times N.eqb Pos.eqb andb negb].
      symmetry in H1. destruct (prefix_cases _ _ _ _ _ H1) as [(r1 & -> & _)|(l1 & -> & E2)].
      + assert (times 62 false l <= times 60 false l)%nat by (eapply IHa; [reflexivity|exact Hp]). lia.
      + rewrite par_app, A in Hp. rewrite !times_app, A. destruct l1 as [|y l1]; [discriminate|].
        inversion E2; subst y. rewrite par_cons in Hp. cbn [N.eqb Pos.eqb negb] in Hp. cbn [times N.eqb Pos.eqb andb negb].
        assert (times 62 false l1 <= times 60 false l1)%nat by (eapply IHs; [eassumption|exact Hp]). lia. }
  rewrite E in B. change (l ++ 60 :: r) with (l ++ [60] ++ r) in B. rewrite !times_app, Hl in B. change (par false [60]) with false in B.
  cbn in B. lia.
Qed.

Lemma paired_gt e l r : paired l ->
  trimmed_end l (fst (failing_expressions [62] e (l ++ [62] ++ r))) /\ trimmed_begin r (snd (failing_expressions [62] e (l ++ [62] ++ r))).
Proof.
  intros H. destruct (paired_ends l H) as (A & B). apply split_gt.
  - split; [|exact B]. split; [reflexivity|]. apply outside_par, A.
  - intros l' r' ((E & Ho) & Hb). cbn [app] in E. destruct (Nat.le_gt_cases (length l) (length l')) as [|Hlt]; [assumption|]. exfalso.
    symmetry in E. destruct (prefix_cases _ _ _ _ _ E) as [(r1 & E1 & _)|(l1 & -> & _)]; [|rewrite app_length in Hlt; lia].
    apply outside_par in Ho. pose proof (paired_no_free l H l' r1 E1 Ho). lia.
Qed.
Lemma paired_lt e l r : paired r ->
  trimmed_end l (fst (failing_expressions [60] e (l ++ [60] ++ r))) /\ trimmed_begin r (snd (failing_expressions [60] e (l ++ [60] ++ r))).
Proof.
  intros H. destruct (paired_ends r H) as (A & B). apply split_lt.
  - split; [reflexivity|]. split; [apply outside_par, A|exact B].
  - intros l' r' (E & Ho & Hb). cbn [app] in E. destruct (Nat.le_gt_cases (length l') (length l)) as [|Hlt]; [assumption|]. exfalso.
    change (l ++ 60 :: r) with (l ++ [60] ++ r) in E. rewrite app_assoc in E. symmetry in E.
    destruct (prefix_cases _ _ _ _ _ E) as [(r1 & E1 & _)|(l1 & -> & E1)].
    + apply (f_equal (@length N)) in E1. rewrite !app_length in E1. cbn in E1. lia.
    + pose proof (paired_no_free_lt r H l1 r' E1 Ho). lia.
Qed.
Lemma split_comma : forall e a, failing_expressions (str ",") e a = (e, a).
Proof. reflexivity. Qed.
