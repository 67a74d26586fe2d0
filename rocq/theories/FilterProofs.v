From Coq Require Import List NArith Bool Arith Lia.
From Verif Require Import Base FilterModel FilterSpec.
Import ListNotations.
Local Open Scope N_scope.

Lemma case_prefix_spec : forall p s, case_prefix p s = true <-> exists b, fold_str true s = fold_str true p ++ b.
Proof.
  induction p as [|a p IH]; intros s; cbn [case_prefix].
  - split; auto. intros _. exists (fold_str true s). auto.
  - destruct s as [|c s].
    + split; [discriminate|]. intros (b & E). discriminate.
    + rewrite andb_true_iff, N.eqb_eq, IH, !tolower_lower. cbn [fold_str map fold_char]. split.
      * intros [E (b & H)]. exists b. rewrite E. cbn [app]. f_equal. exact H.
      * intros (b & E). cbn [app] in E. injection E as E1 E2. split; auto. exists b. auto.
Qed.
Lemma strcasestr_spec : forall s p, strcasestr s p = true <-> occurs p s.
Proof.
  induction s as [|c s IH]; intros p; cbn [strcasestr]; rewrite orb_true_iff, case_prefix_spec; unfold occurs.
  - split.
    + intros [(b & E)|E]; [|discriminate]. exists [], b. auto.
    + intros (a & b & E). left. exists b. symmetry in E. apply app_eq_nil in E. destruct E as [-> E]. auto.
  - rewrite IH. split.
    + intros [(b & E)|(a & b & E)]; [exists [], b; auto|exists (lower c :: a), b; cbn; f_equal; exact E].
    + intros ([|x a] & b & E); [left; exists b; auto|]. cbn in E. inversion E. right. exists a, b. auto.
Qed.
Lemma has_meta_spec : forall p, has_meta p = true <-> wildcarded p.
Proof.
  intros p. unfold has_meta, wildcarded. rewrite existsb_exists. split; intros (c & I & H); exists c; split; auto.
  - rewrite !orb_true_iff, !N.eqb_eq in H. cbn. intuition.
  - rewrite !orb_true_iff, !N.eqb_eq. cbn in H. intuition.
Qed.
Section F.
Variable wild : bytes -> bytes -> bool.
Lemma match_names_spec : forall ps s, match_names wild ps s = true <-> by_name wild ps s.
Proof.
  induction ps as [|p ps IH]; intros s; cbn [match_names].
  - split; [discriminate|]. intros (p & [] & _).
  - assert (R : by_name wild (p :: ps) s <-> occurs p s \/ (wildcarded p /\ wild p s = true) \/ by_name wild ps s).
    { unfold by_name. split.
      - intros (q & [<-|I] & [H|H]); auto; right; right; exists q; auto.
      - intros [H|[H|(q & I & H)]]; [exists p|exists p|exists q]; cbn; auto. }
    rewrite R, <- strcasestr_spec, <- has_meta_spec, <- IH. destruct (strcasestr s p), (has_meta p), (wild p s); cbn; intuition congruence.
Qed.
Lemma tagged_spec : forall ts p, tagged wild ts p = true <-> exists g, In g ts /\ (fold_str true g = fold_str true p \/ wildcarded p /\ wild p g = true).
Proof.
  induction ts as [|t ts IH]; intros p; cbn [tagged].
  - split; [discriminate|]. intros (g & [] & _).
  - pose proof (str_equals_fold true t p) as E. destruct (str_equals true t p) eqn:Q.
    + split; auto. intros _. exists t. cbn. intuition.
    + pose proof (has_meta_spec p) as M. destruct (has_meta p && wild p t) eqn:W.
      * apply andb_true_iff in W. split; auto. intros _. exists t. cbn. intuition.
      * rewrite IH. split; intros (g & I & H); exists g; cbn in *; [intuition|]. destruct I as [<-|I]; [exfalso|auto].
        destruct H as [H|[H1 H2]]; [apply E in H; discriminate|]. apply M in H1. rewrite H1, H2 in W. discriminate.
Qed.
Lemma match_tags_spec : forall ps t, match_tags wild ps t = true <-> by_tag wild ps t.
Proof.
  induction ps as [|p ps IH]; intros t; cbn [match_tags].
  - split; [discriminate|]. intros (p & g & [] & _).
  - assert (R : by_tag wild (p :: ps) t <-> (exists g, In g (t_tags t) /\ (fold_str true g = fold_str true p \/ wildcarded p /\ wild p g = true)) \/ by_tag wild ps t).
    { unfold by_tag. split.
      - intros (q & g & [<-|I] & H); [left; exists g; auto|right; exists q, g; auto].
      - intros [(g & H)|(q & g & I & H)]; [exists p, g|exists q, g]; cbn; intuition. }
    rewrite R, <- tagged_spec, <- IH. destruct (tagged wild (t_tags t) p); intuition congruence.
Qed.
Lemma names_nil : forall s, match_names wild [] s = false. Proof. auto. Qed.
Lemma tags_nil : forall t, match_tags wild [] t = false. Proof. auto. Qed.
Lemma given_if : forall l (m x : bool), (given l = false -> x = false) -> (if given l then m || x else m) = m || x.
Proof. intros [|p l] m x H; cbn in *; auto. rewrite H by auto. rewrite orb_false_r. auto. Qed.
Lemma given_and : forall l (x : bool), (given l = false -> x = false) -> given l && x = x.
Proof. intros [|p l] x H; cbn in *; auto. symmetry. auto. Qed.

Ltac given_side := let E := fresh in intro E; match type of E with given ?l = false => destruct l; [clear E|discriminate] end; cbn; auto.

Lemma no_includes_b : forall F, (given (includes F) || given (file_includes F) || given (suite_includes F) || given (case_includes F) || given (tags_includes F) = false) <-> no_includes F.
Proof.
  intros F. unfold no_includes. destruct (includes F), (file_includes F), (suite_includes F), (case_includes F), (tags_includes F); cbn; intuition congruence.
Qed.

Definition inc_c F s c := match_names wild (includes F) (t_filine s) || match_names wild (includes F) (t_filine c) ||
   match_names wild (includes F) (t_name s) || match_names wild (includes F) (t_name c) || match_tags wild (includes F) s || match_tags wild (includes F) c ||
   (match_names wild (file_includes F) (t_filine s) || match_names wild (file_includes F) (t_filine c)) ||
   match_names wild (suite_includes F) (t_name s) || match_names wild (case_includes F) (t_name c) || (match_tags wild (tags_includes F) s || match_tags wild (tags_includes F) c).
Definition exc_c F s c := match_names wild (excludes F) (t_filine s) || match_names wild (excludes F) (t_filine c) ||
   match_names wild (excludes F) (t_name s) || match_names wild (excludes F) (t_name c) || match_tags wild (excludes F) s || match_tags wild (excludes F) c ||
   (match_names wild (file_excludes F) (t_filine s) || match_names wild (file_excludes F) (t_filine c)) ||
   match_names wild (suite_excludes F) (t_name s) || match_names wild (case_excludes F) (t_name c) || (match_tags wild (tags_excludes F) s || match_tags wild (tags_excludes F) c).
Lemma selects_b : forall any file suite case tag s c,
  match_names wild any (t_filine s) || match_names wild any (t_filine c) || match_names wild any (t_name s) || match_names wild any (t_name c) || match_tags wild any s || match_tags wild any c ||
   (match_names wild file (t_filine s) || match_names wild file (t_filine c)) ||
   match_names wild suite (t_name s) || match_names wild case (t_name c) || (match_tags wild tag s || match_tags wild tag c) = true <-> selects wild any file suite case tag s c.
Proof. intros. unfold selects. rewrite !orb_true_iff, !match_names_spec, !match_tags_spec. tauto. Qed.
Lemma selects_suite_b : forall any file suite tag s,
  match_names wild any (t_filine s) || match_names wild any (t_name s) || match_tags wild any s ||
   match_names wild file (t_filine s) || match_names wild suite (t_name s) || match_tags wild tag s = true <-> selects_suite wild any file suite tag s.
Proof. intros. unfold selects_suite. rewrite !orb_true_iff, !match_names_spec, !match_tags_spec. tauto. Qed.

Lemma orb_if : forall a b : bool, (if a then true else b) = a || b. Proof. destruct a; auto. Qed.

Lemma filter_case_spec : forall F s c, filter_test wild F s (Some c) = true <-> (~ no_includes F /\ ~ included wild F s c) \/ excluded wild F s c.
Proof.
  intros F s c. unfold filter_test, on_case. cbv zeta.
  rewrite !given_if by given_side. rewrite !given_and by given_side. rewrite !orb_if. rewrite !orb_false_l, !orb_false_r.
  rewrite orb_true_iff, andb_true_iff, negb_true_iff.
  rewrite <- not_true_iff_false. rewrite <- (no_includes_b F). unfold included, excluded. rewrite <- !selects_b.
  set (G := given (includes F) || given (file_includes F) || given (suite_includes F) || given (case_includes F) || given (tags_includes F)).
  assert (HG : G = true <-> ~ G = false) by (destruct G; intuition congruence). rewrite HG.
  rewrite !orb_true_iff. tauto.
Qed.
Lemma filter_suite_spec : forall F s, filter_test wild F s None = true <-> (~ no_includes F /\ ~ suite_included wild F s) \/ suite_excluded wild F s.
Proof.
  intros F s. unfold filter_test, on_case. cbv zeta. rewrite ?orb_false_r.
  rewrite !given_if by given_side. rewrite !given_and by given_side. rewrite !orb_if. rewrite ?orb_false_l, ?orb_false_r.
  rewrite orb_true_iff, andb_true_iff, negb_true_iff.
  rewrite <- not_true_iff_false. rewrite <- (no_includes_b F). unfold suite_included, suite_excluded. rewrite <- !selects_suite_b.
  set (G := given (includes F) || given (file_includes F) || given (suite_includes F) || given (case_includes F) || given (tags_includes F)).
  assert (HG : G = true <-> ~ G = false) by (destruct G; intuition congruence). rewrite HG.
  assert (I : forall b x : bool, (if b then x else x) = x) by (intros [|] x; auto). rewrite I. rewrite ?andb_false_r, ?orb_false_r, !orb_true_iff. tauto.
Qed.

Lemma filter_flags : forall F s cases, snd (filter_suite wild F s cases) = map (fun c => filter_test wild F s (Some c)) cases /\
  fst (filter_suite wild F s cases) = filter_test wild F s None && forallb (fun c => filter_test wild F s (Some c)) cases.
Proof.
  intros F s cases. unfold filter_suite.
  assert (H : forall cs acc, let r := fold_left (fun acc c => let f := filter_test wild F s (Some c) in (if negb f then false else fst acc, snd acc ++ [f])) cs acc in
    snd r = snd acc ++ map (fun c => filter_test wild F s (Some c)) cs /\ fst r = fst acc && forallb (fun c => filter_test wild F s (Some c)) cs).
  { induction cs as [|c cs IH]; intros acc; cbv zeta in *; cbn [fold_left map forallb].
    - rewrite app_nil_r, andb_true_r. auto.
    - match goal with |- context [fold_left _ cs ?a] => destruct (IH a) as [A B] end. rewrite A, B. cbn [fst snd]. rewrite <- app_assoc. split; auto.
      destruct (filter_test wild F s (Some c)); cbn [negb andb]; auto. rewrite andb_false_r. auto. }
  specialize (H cases (filter_test wild F s None, [])). cbv zeta in H. destruct H as [A B]. split; auto.
Qed.

Lemma cases_filtered : forall F s cases i c, nth_error cases i = Some c ->
  exists b, nth_error (snd (filter_suite wild F s cases)) i = Some b /\ (b = true <-> (~ no_includes F /\ ~ included wild F s c) \/ excluded wild F s c).
Proof.
  intros F s cases i c H. destruct (filter_flags F s cases) as [-> _]. exists (filter_test wild F s (Some c)). split; [|apply filter_case_spec].
  apply map_nth_error with (f := fun c => filter_test wild F s (Some c)) in H. auto.
Qed.
Lemma suite_filtered : forall F s cases,
  fst (filter_suite wild F s cases) = true <->
  ((~ no_includes F /\ ~ suite_included wild F s) \/ suite_excluded wild F s) /\ (forall c, In c cases -> (~ no_includes F /\ ~ included wild F s c) \/ excluded wild F s c).
Proof.
  intros F s cases. destruct (filter_flags F s cases) as [_ ->]. rewrite andb_true_iff, forallb_forall, filter_suite_spec.
  split; intros [A B]; split; auto; intros c I; apply filter_case_spec; auto.
Qed.
End F.

(** *** descriptions *)
Lemma quotes_cons : forall c s, quotes (c :: s) = Nat.add (if c =? 34 then 1%nat else 0%nat) (quotes s).
Proof. intros. unfold quotes. cbn [filter]. destruct (c =? 34); auto. Qed.
Lemma even_quote : forall q n, Nat.even (S n) = q -> Nat.even n = negb q.
Proof. intros q n <-. rewrite Nat.even_succ, <- Nat.negb_even, negb_involutive. auto. Qed.
(** scan in state [q] (true = inside quotes) finds the first place where the parity is even *)
Lemma scan_some : forall want s q a b, want <> 34 -> scan want q s = Some (a, b) ->
  s = a ++ want :: b /\ Nat.even (quotes a) = negb q /\ (forall a1 a2, a = a1 ++ want :: a2 -> Nat.even (quotes a1) = q).
Proof.
  induction s as [|c s IH]; intros q a b Hw H; cbn [scan] in H; [discriminate|]. cbv zeta in H.
  destruct (N.eqb_spec c 34) as [->|Nc].
  - replace (34 =? want) with false in H by (symmetry; apply N.eqb_neq; auto). rewrite andb_false_r in H.
    destruct (scan want (negb q) s) as [[a' b']|] eqn:E; [|discriminate]. injection H as <- <-. destruct (IH _ _ _ Hw E) as (A & B & C). rewrite A. split; [auto|split].
    + rewrite quotes_cons. cbn [N.eqb Pos.eqb]. replace (34 =? 34) with true by auto. rewrite Nat.add_1_l, Nat.even_succ, <- Nat.negb_even, B, negb_involutive. auto.
    + intros [|x a1] a2 E2; cbn in E2; inversion E2; subst; [congruence|]. rewrite quotes_cons. replace (34 =? 34) with true by auto.
      rewrite Nat.add_1_l, Nat.even_succ, <- Nat.negb_even, (C a1 a2) by auto. apply negb_involutive.
  - destruct (negb q && (c =? want)) eqn:Q.
    + injection H as <- <-. apply andb_true_iff in Q. destruct Q as [Q1 Q2]. apply N.eqb_eq in Q2. subst c. split; [auto|split]; [rewrite Q1; auto|].
      intros [|x a1] a2 E2; discriminate.
    + destruct (scan want q s) as [[a' b']|] eqn:E; [|discriminate]. injection H as <- <-. destruct (IH _ _ _ Hw E) as (A & B & C). rewrite A. split; [auto|split].
      * rewrite quotes_cons. replace (c =? 34) with false by (symmetry; apply N.eqb_neq; auto). auto.
      * intros [|x a1] a2 E2; cbn in E2; inversion E2; subst.
        -- rewrite N.eqb_refl, andb_true_r in Q. cbn. destruct q; auto; discriminate.
        -- rewrite quotes_cons. replace (x =? 34) with false by (symmetry; apply N.eqb_neq; auto). apply (C a1 a2). auto.
Qed.
Lemma scan_none : forall want s q, want <> 34 -> scan want q s = None -> forall a b, s = a ++ want :: b -> Nat.even (quotes a) = q.
Proof.
  induction s as [|c s IH]; intros q Hw H a b E; [destruct a; discriminate|]. cbn [scan] in H. cbv zeta in H.
  destruct (N.eqb_spec c 34) as [->|Nc].
  - replace (34 =? want) with false in H by (symmetry; apply N.eqb_neq; auto). rewrite andb_false_r in H. destruct (scan want (negb q) s) as [[? ?]|] eqn:Es; [discriminate|].
    destruct a as [|x a]; cbn in E; inversion E; subst; [congruence|]. rewrite quotes_cons. replace (34 =? 34) with true by auto.
    rewrite Nat.add_1_l, Nat.even_succ, <- Nat.negb_even, (IH _ Hw Es a b) by auto. apply negb_involutive.
  - destruct (negb q && (c =? want)) eqn:Q; [discriminate|]. destruct (scan want q s) as [[? ?]|] eqn:Es; [discriminate|].
    destruct a as [|x a]; cbn in E; inversion E; subst.
    + rewrite N.eqb_refl, andb_true_r in Q. cbn. destruct q; auto; discriminate.
    + rewrite quotes_cons. replace (x =? 34) with false by (symmetry; apply N.eqb_neq; auto). apply (IH _ Hw Es a b). auto.
Qed.
Lemma first_split_unique : forall c (a1 b1 a2 b2 : bytes), a1 ++ c :: b1 = a2 ++ c :: b2 -> nowhere_unquoted c a1 -> unquoted_end a1 -> nowhere_unquoted c a2 -> unquoted_end a2 -> a1 = a2 /\ b1 = b2.
Proof.
  intros c a1 b1 a2 b2 E N1 U1 N2 U2. apply app_eq_app in E. destruct E as (l & [[E1 E2]|[E1 E2]]).
  - destruct l as [|x l]; [rewrite app_nil_r in E1; inversion E2; auto|]. cbn in E2. inversion E2; subst. exfalso. apply (N1 a2 l); auto.
  - destruct l as [|x l]; [rewrite app_nil_r in E1; inversion E2; auto|]. cbn in E2. inversion E2; subst. exfalso. apply (N2 a1 l); auto.
Qed.

Lemma split_describe_spec : forall d, (length d < 512)%nat -> exists nm tg, split_describe d = Some (nm, tg) /\
  ((exists pre post, bracketed d pre tg post /\ nm = pre ++ post) \/ ((forall pre mid post, ~ bracketed d pre mid post) /\ nm = d /\ tg = [])).
Proof.
  intros d L. unfold split_describe. replace (Nat.ltb (length d) 512) with true by (symmetry; apply Nat.ltb_lt; auto).
  destruct (scan 91 false d) as [[pre after]|] eqn:S1.
  - destruct (scan_some 91 d false pre after) as (A & B & C); [discriminate|auto|]. 
    assert (NW : nowhere_unquoted 91 pre) by (intros a b E U; unfold unquoted_end in U; rewrite (C a b E) in U; discriminate).
    destruct (scan 93 false after) as [[mid post]|] eqn:S2.
    + destruct (scan_some 93 after false mid post) as (A2 & B2 & C2); [discriminate|auto|]. exists (pre ++ post), mid. split; auto. left. exists pre, post. split; auto.
      unfold bracketed. rewrite <- A2. repeat split; auto. intros a b E U. unfold unquoted_end in U. rewrite (C2 a b E) in U. discriminate.
    + exists d, []. split; auto. right. split; auto. intros p m q (E & P1 & P2 & P3 & P4). rewrite A in E. apply first_split_unique in E; auto. destruct E as [-> ->].
      pose proof (scan_none 93 _ false ltac:(discriminate) S2 m q eq_refl) as Z. unfold unquoted_end in P4. congruence.
  - exists d, []. split; auto. right. split; auto. intros p m q (E & P1 & P2 & P3 & P4).
    pose proof (scan_none 91 _ false ltac:(discriminate) S1 p _ E) as Z. unfold unquoted_end in P2. congruence.
Qed.

Lemma is_delim_spec : forall c, is_delim c = true <-> delim c.
Proof. intros. unfold is_delim, delim. rewrite orb_true_iff, !N.eqb_eq. tauto. Qed.
Lemma strtok_spec : forall s cur, Forall (fun c => ~ delim c) cur ->
  (cur = [] -> tokens s (strtok s cur)) /\ (cur <> [] -> forall d, Forall delim d -> tokens (d ++ rev cur ++ s) (strtok s cur)).
Proof.
  induction s as [|c s IH]; intros cur Hc; cbn [strtok].
  - split.
    + intros ->. apply tk_nil. constructor.
    + intros Nc d Hd. destruct cur as [|x cur]; [congruence|]. rewrite app_nil_r. apply tk_last; auto.
      * cbn. intro E. apply app_eq_nil in E. destruct E. discriminate.
      * apply Forall_rev. auto.
  - destruct (is_delim c) eqn:D.
    + apply is_delim_spec in D. destruct (IH [] ltac:(constructor)) as [Hn _]. specialize (Hn eq_refl). split.
      * intros ->. clear IH Hc. inversion Hn; subst.
        -- apply tk_nil. constructor; auto.
        -- change (c :: d ++ t) with ((c :: d) ++ t). apply tk_last; auto.
        -- change (c :: d ++ t ++ c0 :: s0) with ((c :: d) ++ t ++ c0 :: s0). apply tk_cons; auto.
      * intros Nc d Hd. destruct cur as [|x cur]; [congruence|]. apply tk_cons; auto.
        -- cbn. intro E. apply app_eq_nil in E. destruct E. discriminate.
        -- apply Forall_rev. auto.
        -- inversion Hn; subst.
           ++ apply tk_nil. constructor; auto.
           ++ change (c :: d0 ++ t) with ((c :: d0) ++ t). apply tk_last; auto.
           ++ change (c :: d0 ++ t ++ c0 :: s0) with ((c :: d0) ++ t ++ c0 :: s0). apply tk_cons; auto.
    + assert (Nd : ~ delim c) by (intro Z; apply is_delim_spec in Z; congruence). destruct (IH (c :: cur)) as [_ H]; [constructor; auto|]. split.
      * intros ->. specialize (H ltac:(discriminate) [] ltac:(constructor)). auto.
      * intros Nc d Hd. specialize (H ltac:(discriminate) d Hd). cbn [rev] in H. rewrite <- app_assoc in H. auto.
Qed.
Lemma strip_spec : forall s, stripped s (strip_left s).
Proof.
  assert (B : forall c, isspace c = true <-> blank c) by (intros; unfold isspace, blank; rewrite orb_true_iff, andb_true_iff, N.eqb_eq, !N.leb_le; tauto).
  induction s as [|c s IH]; cbn [strip_left].
  - exists []. repeat split; auto. intros c r' E. discriminate.
  - destruct (isspace c) eqn:E.
    + destruct IH as (l & E1 & F & G). exists (c :: l). split; [cbn; f_equal; exact E1|]. split; auto. constructor; auto. apply B; auto.
    + exists []. repeat split; auto. intros c' r' Er. inversion Er; subst. intro Z. apply B in Z. congruence.
Qed.
Lemma describe_spec : forall fl d, (length d < 512)%nat -> exists t, describe_test fl d = Some t /\ t_filine t = fl /\
  exists nm tg ts, ((exists pre post, bracketed d pre tg post /\ nm = pre ++ post) \/ ((forall pre mid post, ~ bracketed d pre mid post) /\ nm = d /\ tg = []))
   /\ stripped nm (t_name t) /\ tokens tg ts /\ t_tags t = firstn 63 ts.
Proof.
  intros fl d L. unfold describe_test. destruct (split_describe_spec d L) as (nm & tg & E & H). rewrite E. eexists. split; [reflexivity|]. split; [reflexivity|]. cbn [t_name t_tags].
  exists nm, tg, (strtok tg []). split; auto. split; [apply strip_spec|]. split; auto. apply strtok_spec; auto.
Qed.
