(** Proofs about reading expectations (C80): a text is read in one way only. *)
From Coq Require Import List NArith ZArith Bool Arith Lia.
From Verif Require Import Base StrModel LineSpec JunitSpec MessageSpec FailModel MatcherModel ValueModel ValueSpec ValueProofs ValueProofs2 ExpectModel ExpectSpec.
Import ListNotations.
Local Open Scope N_scope.

Local Notation text := (list (styles * byte)).
Section one.
Variable st : styles.
(** what can follow *)
Definition closer (r : text) : Prop := exists b r', r = (dimmed st, b) :: r' /\ (b = 41 \/ b = 44).
Definition stop (l : level) (r : text) : Prop :=
  r = [] \/ closer r \/
  match l with Alone => exists r', r = (st, 32) :: r' | Conjunction => exists r', r = letters st (str " or ") ++ r' | Disjunction => False end.
Lemma stop_alone : forall l r, stop l r -> stop Alone r.
Proof. intros l r [H|[H|H]]; [left; exact H|right; left; exact H|right; right]. destruct l; [exact H| |destruct H]. destruct H as (r' & ->). eexists. reflexivity. Qed.
Lemma dimmed_st : dimmed st <> st. Proof. apply dimmed_other. Qed.

(** a run of plain characters without blanks ends in one place *)
Definition run_end (r : text) : Prop := match r with [] => True | p :: _ => fst p = dimmed st \/ p = (st, 32) end.
Lemma run_edge : forall a b r r', ~ In 32 a -> ~ In 32 b -> run_end r -> run_end r' -> letters st a ++ r = letters st b ++ r' -> a = b /\ r = r'.
Proof.
  induction a as [|x a IH]; intros b r r' A B E E' H; destruct b as [|y b].
  - split; [reflexivity|exact H].
  - exfalso. cbn in H. subst r. cbn in E. destruct E as [E|E]; [apply dimmed_st; symmetry; exact E|]. inversion E. apply B. left. assumption.
  - exfalso. cbn in H. subst r'. cbn in E'. destruct E' as [E'|E']; [apply dimmed_st; symmetry; exact E'|]. inversion E'. apply A. left. assumption.
  - cbn in H. inversion H. subst y. destruct (IH b r r') as (-> & ->); auto; intros I; [apply A|apply B]; right; exact I.
Qed.
Lemma stop_run : forall r, stop Alone r -> run_end r.
Proof. intros r [->|[(b & r' & -> & _)|(r' & ->)]]; cbn; auto. Qed.

(** words and numbers *)
Inductive bare : bytes -> saying -> Prop :=
| b_any neg : bare (mark neg not_mark ++ str "Any") (negated neg (Leaf false false LAny))
| b_null neg : bare (mark neg not_mark ++ str "NULL") (negated neg (Leaf false false LNull))
| b_true : bare (str "true") (Leaf false false LTrue)
| b_false : bare (str "false") (No (Leaf false false LTrue))
| b_number neg star (o : option comparison) z d : whole z d ->
    bare (mark neg (match o with Some _ => not_mark | None => unequal_mark end) ++ mark star (str "*") ++ match o with Some o => compare_mark o | None => [] end ++ d)
         (negated neg (Leaf false false (match o with Some o => LCompare o z | None => LNumber z end))).
Lemma whole_head : forall z d, whole z d -> exists x r, d = x :: r /\ (x = 45 \/ 48 <= x <= 57) /\ ~ In 32 d.
Proof.
  intros z d [(_ & D)|(_ & e & -> & D)].
  - destruct D as (F & _ & NE & _). destruct d as [|x r]; [contradiction|]. exists x, r. split; [reflexivity|]. split; [right; inversion F; assumption|]. rewrite Forall_forall in F. intros I. apply F in I. lia.
  - exists 45, e. split; [reflexivity|]. split; [left; reflexivity|]. destruct D as (F & _). rewrite Forall_forall in F. intros [I|I]; [discriminate|]. apply F in I. lia.
Qed.
Lemma numbers_one : forall neg star o z d neg' star' o' z' d', whole z d -> whole z' d' ->
  mark neg (match o with Some _ => not_mark | None => unequal_mark end) ++ mark star (str "*") ++ match o with Some o => compare_mark o | None => [] end ++ d =
  mark neg' (match o' with Some _ => not_mark | None => unequal_mark end) ++ mark star' (str "*") ++ match o' with Some o => compare_mark o | None => [] end ++ d' -> neg = neg' /\ o = o' /\ z = z'.
Proof.
  intros neg star o z d neg' star' o' z' d' W W' E.
  destruct (whole_head z d W) as (x & r & D & X & _). destruct (whole_head z' d' W') as (x' & r' & D' & X' & _).
  assert (Q : neg = neg' /\ o = o' /\ d = d').
  { subst d d'. destruct neg, neg', star, star', o as [[]|], o' as [[]|]; cbn in E; injection E; intros; subst; try (exfalso; destruct X, X'; lia); auto; repeat split; congruence. }
  destruct Q as (-> & -> & ->). repeat split. eapply whole_one; eassumption.
Qed.
Lemma number_word : forall neg star o z d w, whole z d -> In w [str "Any"; str "!Any"; str "NULL"; str "!NULL"; str "true"; str "false"] ->
  mark neg (match o with Some _ => not_mark | None => unequal_mark end) ++ mark star (str "*") ++ match o with Some o => compare_mark o | None => [] end ++ d = w -> False.
Proof.
  intros neg star o z d w W I E. destruct (whole_head z d W) as (x & r & D & X & _). subst d w. cbn [In] in I.
  repeat (destruct I as [I|I]; [destruct neg, star, o as [[]|]; cbn in I; injection I; intros; subst; destruct X; lia|]). destruct I.
Qed.
Lemma bare_one : forall w s s', bare w s -> bare w s' -> s = s'.
Proof.
  intros w s s' B B'. remember w as w' eqn:E in B'. destruct B, B'; try (destruct neg; try destruct neg0; discriminate E || reflexivity); try reflexivity; try discriminate E;
  try (exfalso; eapply (number_word neg0 star o); [eassumption| |exact E]; destruct neg; cbn; tauto);
  try (exfalso; eapply (number_word neg star o); [eassumption| |exact E]; cbn; tauto);
  try (exfalso; eapply (number_word neg star o); [eassumption| |symmetry; exact E]; try destruct neg0; cbn; tauto).
  symmetry in E. destruct (numbers_one _ _ _ _ _ _ _ _ _ _ H H0 E) as (-> & -> & ->). reflexivity.
Qed.
Lemma bare_space : forall w s, bare w s -> ~ In 32 w.
Proof.
  intros w s B. destruct B; try (destruct neg; cbn; intuition discriminate); try (cbn; intuition discriminate).
  destruct (whole_head z d H) as (_ & _ & _ & _ & N). intros I. apply in_app_or in I. destruct I as [I|I]; [destruct neg, o; cbn in I; intuition discriminate|].
  apply in_app_or in I. destruct I as [I|I]; [destruct star; cbn in I; intuition discriminate|]. apply in_app_or in I. destruct I as [I|I]; [destruct o as [[]|]; cbn in I; intuition discriminate|auto].
Qed.

(** what stands before a round bracket *)
Inductive kind := KNamed (neg ci sq : bool) (name : bytes) | KParen | KNot | KSeveral (neg : bool) (w : bytes).
Definition bools := [true; false].
Definition table : list (bytes * kind) :=
  [([], KParen); (not_mark, KNot)] ++
  flat_map (fun neg => map (fun w => (mark neg not_mark ++ w, KSeveral neg w)) [str "AllOf"; str "AnyOf"; str "NoneOf"]) bools ++
  flat_map (fun neg => flat_map (fun ci => flat_map (fun sq => map (fun name => (mark neg not_mark ++ mark ci (str "~") ++ mark sq (str "*") ++ name, KNamed neg ci sq name)) ways) bools) bools) bools.
Lemma table_one : forall w k k', In (w, k) table -> In (w, k') table -> k = k'.
Proof.
  assert (G : forall l : list (bytes * kind), NoDup (map fst l) -> forall w k k', In (w, k) l -> In (w, k') l -> k = k').
  { induction l as [|(a, b) l IH]; intros ND w k k' I I'; [destruct I|]. inversion ND as [|? ? NI ND']; subst. destruct I as [I|I], I' as [I'|I'].
    - congruence.
    - exfalso. apply NI. inversion I; subst. apply (in_map fst) in I'. exact I'.
    - exfalso. apply NI. inversion I'; subst. apply (in_map fst) in I. exact I.
    - eapply IH; eassumption. }
  apply G. assert (D : forall l : list bytes, (fix nd (l : list bytes) := match l with [] => true | x :: r => negb (existsb (bytes_eqb x) r) && nd r end) l = true -> NoDup l).
  { clear. induction l as [|x l IH]; intros H; constructor; apply andb_true_iff in H; destruct H as (A & B); [|apply IH, B]. intros I. apply negb_true_iff in A. assert (existsb (bytes_eqb x) l = true) by (apply existsb_exists; exists x; split; [exact I|apply bytes_eqb_eq; reflexivity]). congruence. }
  apply D. vm_compute. reflexivity.
Qed.
Lemma table_space : forall w k, In (w, k) table -> ~ In 32 w.
Proof.
  intros w k I. assert (H : forallb (fun p => negb (existsb (N.eqb 32) (fst p))) table = true) by (vm_compute; reflexivity). rewrite forallb_forall in H. specialize (H _ I). cbn [fst] in H. apply negb_true_iff in H.
  intros J. assert (existsb (N.eqb 32) w = true) by (apply existsb_exists; exists 32; split; [exact J|reflexivity]). congruence.
Qed.
Lemma in_bools : forall b, In b bools. Proof. destruct b; cbn; auto. Qed.
Lemma named_table : forall neg ci sq name, In name ways -> In (mark neg not_mark ++ mark ci (str "~") ++ mark sq (str "*") ++ name, KNamed neg ci sq name) table.
Proof.
  intros neg ci sq name I. unfold table. apply in_or_app. right. apply in_or_app. right. apply in_flat_map. exists neg. split; [apply in_bools|]. apply in_flat_map. exists ci. split; [apply in_bools|]. apply in_flat_map. exists sq. split; [apply in_bools|].
  apply in_map_iff. exists name. split; [reflexivity|exact I].
Qed.
Lemma several_table : forall neg w l s, several w l = Some s -> In (mark neg not_mark ++ w, KSeveral neg w) table.
Proof.
  intros neg w l s H. assert (In w [str "AllOf"; str "AnyOf"; str "NoneOf"]).
  { unfold several in H. destruct (bytes_eqb w (str "AllOf")) eqn:A; [apply bytes_eqb_eq in A; subst; cbn; auto|]. destruct (bytes_eqb w (str "AnyOf")) eqn:B; [apply bytes_eqb_eq in B; subst; cbn; auto|]. destruct (bytes_eqb w (str "NoneOf")) eqn:C; [apply bytes_eqb_eq in C; subst; cbn; auto|discriminate]. }
  unfold table. apply in_or_app. right. apply in_or_app. left. apply in_flat_map. exists neg. split; [apply in_bools|]. apply in_map_iff. exists w. split; [reflexivity|assumption].
Qed.
Definition quote_body (s : bytes) : text := grayed st [34] ++ letters st s ++ grayed st [34].
Definition body (k : kind) (o : text) (s : saying) : Prop :=
  match k with
  | KNamed neg ci sq name => exists x, o = quote_body x /\ s = negated neg (Leaf ci sq (LNamed name x))
  | KParen => reads st Disjunction o s
  | KNot => exists s1, s = No s1 /\ reads st Disjunction o s1
  | KSeveral neg w => exists l s1, several w l = Some s1 /\ s = negated neg s1 /\ reads_list st o l
  end.
Definition shape (t : text) (s : saying) : Prop :=
  (exists w, t = letters st w /\ bare w s) \/
  (exists neg ci sq x, t = letters st (mark neg unequal_mark ++ mark ci (str "~") ++ mark sq (str "*")) ++ quote_body x /\ s = negated neg (Leaf ci sq (LSame x))) \/
  (exists w k o, t = letters st w ++ grayed st [40] ++ o ++ grayed st [41] /\ In (w, k) table /\ body k o s).
Lemma alone_shape : forall t s, reads st Alone t s -> shape t s.
Proof.
  intros t s R. inversion R as [o s1 SI| | |neg w o l s1 SV RL| | | |]; subst.
  - destruct SI as [neg|neg| | |neg star z d W|neg star o z d W|neg ci sq x|neg ci sq name x IN].
    + left. eexists. split; [reflexivity|constructor].
    + left. eexists. split; [reflexivity|constructor].
    + left. eexists. split; [reflexivity|constructor].
    + left. eexists. split; [reflexivity|constructor].
    + left. eexists. split; [reflexivity|]. exact (b_number neg star None z d W).
    + left. eexists. split; [reflexivity|]. exact (b_number neg star (Some o) z d W).
    + right. left. exists neg, ci, sq, x. split; reflexivity.
    + right. right. exists (mark neg not_mark ++ mark ci (str "~") ++ mark sq (str "*") ++ name), (KNamed neg ci sq name), (quote_body x). split; [reflexivity|]. split; [apply named_table, IN|]. exists x. split; reflexivity.
  - right. right. exists [], KParen, o. split; [reflexivity|]. split; [left; reflexivity|exact H].
  - right. right. exists not_mark, KNot, o. split; [reflexivity|]. split; [right; left; reflexivity|]. exists s0. split; [reflexivity|exact H].
  - right. right. exists (mark neg not_mark ++ w), (KSeveral neg w), o. split; [reflexivity|]. split; [eapply several_table; exact SV|]. exists l, s1. repeat split; assumption.
Qed.
Definition one_way (l : level) (n : nat) : Prop := forall t s t' s' r r', (length t <= n)%nat -> reads st l t s -> reads st l t' s' -> stop l r -> stop l r' -> t ++ r = t' ++ r' -> t = t' /\ s = s'.
Definition one_way_list (n : nat) : Prop := forall t l t' l' r r', (length t <= n)%nat -> reads_list st t l -> reads_list st t' l' -> closer r -> closer r' -> hd_error (map snd r) = Some 41 -> hd_error (map snd r') = Some 41 -> t ++ r = t' ++ r' -> t = t' /\ l = l'.
Lemma marks_space : forall neg ci sq, ~ In 32 (mark neg unequal_mark ++ mark ci (str "~") ++ mark sq (str "*")).
Proof. intros [] [] []; cbn; intuition discriminate. Qed.
Lemma marks_one : forall neg ci sq neg' ci' sq', mark neg unequal_mark ++ mark ci (str "~") ++ mark sq (str "*") = mark neg' unequal_mark ++ mark ci' (str "~") ++ mark sq' (str "*") -> neg = neg' /\ ci = ci' /\ sq = sq'.
Proof. intros [] [] [] [] [] [] E; try discriminate E; repeat split. Qed.
Lemma close_stop : forall l r, stop l (grayed st [41] ++ r).
Proof. intros l r. right. left. exists 41, r. split; [reflexivity|left; reflexivity]. Qed.
Lemma close_closer : forall r, closer (grayed st [41] ++ r).
Proof. intros r. exists 41, r. split; [reflexivity|left; reflexivity]. Qed.
Lemma quote_one : forall x y r r', quote_body x ++ r = quote_body y ++ r' -> x = y /\ r = r'.
Proof.
  intros x y r r' E. unfold quote_body in E. rewrite <- !app_assoc in E. apply app_inv_head in E. apply letters_edge in E; [|reflexivity|reflexivity]. destruct E as (-> & E). apply app_inv_head in E. split; [reflexivity|exact E].
Qed.
Lemma alone_one : forall n, (forall m, (m < n)%nat -> one_way Disjunction m /\ one_way_list m) -> one_way Alone n.
Proof.
  intros n IH t s t' s' r r' L R R' S1 S2 E. apply alone_shape in R, R'.
  destruct R as [(w & -> & B)|[(neg & ci & sq & x & -> & ->)|(w & k & o & -> & I & B)]]; destruct R' as [(w' & -> & B')|[(neg' & ci' & sq' & x' & -> & ->)|(w' & k' & o' & -> & I' & B')]]; rewrite <- ?app_assoc in E.
  - apply run_edge in E; try (apply stop_run; assumption); try (eapply bare_space; eassumption). destruct E as (-> & _). split; [reflexivity|]. eapply bare_one; eassumption.
  - exfalso. apply run_edge in E; [|eapply bare_space; eassumption|apply marks_space|apply stop_run; assumption|left; reflexivity]. destruct E as (_ & ->). destruct S1 as [S1|[(b & q & S1 & C)|(q & S1)]]; [discriminate S1|inversion S1; subst; destruct C; discriminate|cbn in S1; discriminate S1].
  - exfalso. apply run_edge in E; [|eapply bare_space; eassumption|eapply table_space; eassumption|apply stop_run; assumption|left; reflexivity]. destruct E as (_ & ->). destruct S1 as [S1|[(b & q & S1 & C)|(q & S1)]]; [discriminate S1|inversion S1; subst; destruct C; discriminate|cbn in S1; discriminate S1].
  - exfalso. apply run_edge in E; [|apply marks_space|eapply bare_space; eassumption|left; reflexivity|apply stop_run; assumption]. destruct E as (_ & <-). destruct S2 as [S2|[(b & q & S2 & C)|(q & S2)]]; [discriminate S2|inversion S2; subst; destruct C; discriminate|cbn in S2; discriminate S2].
  - apply run_edge in E; [|apply marks_space|apply marks_space|left; reflexivity|left; reflexivity]. destruct E as (M & E). apply marks_one in M. destruct M as (-> & -> & ->). apply quote_one in E. destruct E as (-> & _). split; reflexivity.
  - exfalso. apply run_edge in E; [|apply marks_space|eapply table_space; eassumption|left; reflexivity|left; reflexivity]. destruct E as (_ & E). cbn in E. discriminate E.
  - exfalso. apply run_edge in E; [|eapply table_space; eassumption|eapply bare_space; eassumption|left; reflexivity|apply stop_run; assumption]. destruct E as (_ & <-). destruct S2 as [S2|[(b & q & S2 & C)|(q & S2)]]; [discriminate S2|inversion S2; subst; destruct C; discriminate|cbn in S2; discriminate S2].
  - exfalso. apply run_edge in E; [|eapply table_space; eassumption|apply marks_space|left; reflexivity|left; reflexivity]. destruct E as (_ & E). cbn in E. discriminate E.
  - apply run_edge in E; [|eapply table_space; eassumption|eapply table_space; eassumption|left; reflexivity|left; reflexivity]. destruct E as (-> & E). apply app_inv_head in E.
    pose proof (table_one _ _ _ I I'). subst k'. rewrite !app_length in L. cbn in L.
    destruct k as [neg ci sq name| | |neg w]; cbn [body] in B, B'.
    + destruct B as (x & -> & ->), B' as (x' & -> & ->). apply quote_one in E. destruct E as (-> & _). split; reflexivity.
    + destruct (IH (length o)) as (H & _); [lia|]. destruct (H o s o' s' _ _ (le_n _) B B' (close_stop _ _) (close_stop _ _) E) as (-> & ->). split; reflexivity.
    + destruct B as (s1 & -> & B), B' as (s1' & -> & B'). destruct (IH (length o)) as (H & _); [lia|]. destruct (H o s1 o' s1' _ _ (le_n _) B B' (close_stop _ _) (close_stop _ _) E) as (-> & ->). split; reflexivity.
    + destruct B as (l & s1 & V & -> & B), B' as (l' & s1' & V' & -> & B'). destruct (IH (length o)) as (_ & H); [lia|]. destruct (H o l o' l' _ _ (le_n _) B B' (close_closer _) (close_closer _) eq_refl eq_refl E) as (-> & ->). rewrite V in V'. inversion V'. split; reflexivity.
Qed.
(** chains *)
Definition chain (l : level) (w : bytes) (f : saying -> saying -> saying) (t : text) (s : saying) : Prop :=
  exists p0 s0 rest, reads st l p0 s0 /\ Forall (fun x => reads st l (fst x) (snd x)) rest /\ t = p0 ++ flat_map (fun x => letters st w ++ fst x) rest /\ s = fold_left (fun a x => f a (snd x)) rest s0.
Lemma conjunction_chain : forall t s, reads st Conjunction t s -> chain Alone (str " and ") Both t s.
Proof.
  intros t s R. remember Conjunction as l eqn:L. induction R as [| | | |o s R IH|o s p t R1 IH1 R2 IH2| |]; try discriminate L.
  - exists o, s, []. repeat split; auto. cbn. symmetry. apply app_nil_r.
  - destruct (IH1 eq_refl) as (p0 & s0 & rest & A & B & -> & ->). exists p0, s0, (rest ++ [(p, t)]). split; [exact A|]. split; [apply Forall_app; split; [exact B|constructor; [exact R2|constructor]]|]. split; [rewrite flat_map_app; cbn [flat_map fst]; rewrite app_nil_r, <- app_assoc; reflexivity|rewrite fold_left_app; reflexivity].
Qed.
Lemma disjunction_chain : forall t s, reads st Disjunction t s -> chain Conjunction (str " or ") Either t s.
Proof.
  intros t s R. remember Disjunction as l eqn:L. induction R as [| | | | | |o s R IH|o s p t R1 IH1 R2 IH2]; try discriminate L.
  - exists o, s, []. repeat split; auto. cbn. symmetry. apply app_nil_r.
  - destruct (IH1 eq_refl) as (p0 & s0 & rest & A & B & -> & ->). exists p0, s0, (rest ++ [(p, t)]). split; [exact A|]. split; [apply Forall_app; split; [exact B|constructor; [exact R2|constructor]]|]. split; [rewrite flat_map_app; cbn [flat_map fst]; rewrite app_nil_r, <- app_assoc; reflexivity|rewrite fold_left_app; reflexivity].
Qed.
Definition next (l : level) : level := match l with Alone => Conjunction | _ => Disjunction end.
Definition word (l : level) : bytes := match l with Alone => str " and " | _ => str " or " end.
Lemma chain_stop : forall l rest r, l <> Disjunction -> stop (next l) r -> stop l (flat_map (fun x : text * saying => letters st (word l) ++ fst x) rest ++ r).
Proof.
  intros l rest r D S1. destruct rest as [|x rest].
  - cbn. destruct l; [apply stop_alone in S1; exact S1| |contradiction]. destruct S1 as [S1|[S1|[]]]; [left; exact S1|right; left; exact S1].
  - right. right. destruct l; [| |contradiction]; cbn [flat_map word]; rewrite <- !app_assoc; eexists; reflexivity.
Qed.
Lemma chain_one : forall l f n, l <> Disjunction -> one_way l n -> forall t s t' s' r r', (length t <= n)%nat -> chain l (word l) f t s -> chain l (word l) f t' s' -> stop (next l) r -> stop (next l) r' -> t ++ r = t' ++ r' -> t = t' /\ s = s'.
Proof.
  intros l f n LD O t s t' s' r r' L (p0 & s0 & rest & A & F & -> & ->) (p0' & s0' & rest' & A' & F' & -> & ->) S1 S2 E.
  rewrite <- !app_assoc in E. rewrite app_length in L.
  destruct (O p0 s0 p0' s0' _ _ ltac:(lia) A A' (chain_stop l rest r LD S1) (chain_stop l rest' r' LD S2) E) as (-> & ->). apply app_inv_head in E.
  assert (G : rest = rest').
  { clear A A' s0'. assert (LL : (length (flat_map (fun x : text * saying => letters st (word l) ++ fst x) rest) <= n)%nat) by (eapply Nat.le_trans; [apply Nat.le_add_l|exact L]). clear L. revert rest' F' E LL. induction rest as [|x rest IH]; intros rest' F' E LL; destruct rest' as [|y rest'].
    - reflexivity.
    - exfalso. cbn [flat_map] in E. cbn [app] in E. subst r. destruct l; [| |contradiction]; destruct S1 as [S1|[(b & q & S1 & _)|S1]]; try discriminate S1; try (inversion S1; eapply dimmed_st; symmetry; eassumption); try (destruct S1 as (q & S1); discriminate S1); destruct S1.
    - exfalso. cbn [flat_map] in E. cbn [app] in E. subst r'. destruct l; [| |contradiction]; destruct S2 as [S2|[(b & q & S2 & _)|S2]]; try discriminate S2; try (inversion S2; eapply dimmed_st; symmetry; eassumption); try (destruct S2 as (q & S2); discriminate S2); destruct S2.
    - cbn [flat_map] in E, LL. rewrite <- !app_assoc in E. apply app_inv_head in E. inversion F as [|? ? FX FR]; subst. inversion F' as [|? ? FY FR']; subst. rewrite !app_length in LL.
      destruct (O (fst x) (snd x) (fst y) (snd y) _ _ ltac:(lia) FX FY (chain_stop l rest r LD S1) (chain_stop l rest' r' LD S2) E) as (EX & ES). rewrite EX in E. apply app_inv_head in E.
      rewrite (IH FR rest' FR' E ltac:(lia)). f_equal. destruct x, y. cbn in *. subst. reflexivity. }
  subst rest'. split; reflexivity.
Qed.
Lemma conjunction_one : forall n, one_way Alone n -> one_way Conjunction n.
Proof. intros n O t s t' s' r r' L R R' S1 S2 E. apply conjunction_chain in R, R'. exact (chain_one Alone Both n ltac:(discriminate) O t s t' s' r r' L R R' S1 S2 E). Qed.
Lemma disjunction_one : forall n, one_way Conjunction n -> one_way Disjunction n.
Proof. intros n O t s t' s' r r' L R R' S1 S2 E. apply disjunction_chain in R, R'. exact (chain_one Conjunction Either n ltac:(discriminate) O t s t' s' r r' L R R' S1 S2 E). Qed.
(** a reading begins with something that is neither a closing bracket nor a comma *)
Lemma alone_begins : forall t s r, reads st Alone t s -> ~ closer (t ++ r) /\ t <> [].
Proof.
  intros t s r R. apply alone_shape in R.
  assert (G : forall w q, w <> [] -> ~ closer (letters st w ++ q) /\ letters st w ++ q <> []).
  { intros w q NE. destruct w as [|x w]; [contradiction|]. split; [|discriminate]. intros (b & q' & E & _). cbn in E. inversion E. eapply dimmed_st. symmetry. eassumption. }
  assert (H : forall w b q, b <> 41 -> b <> 44 -> ~ closer ((letters st w ++ grayed st [b] ++ q) ++ r) /\ letters st w ++ grayed st [b] ++ q <> []).
  { intros w b q NB1 NB2. destruct w as [|x w].
    - split; [|discriminate]. intros (b' & q' & E & C). cbn in E. inversion E. subst. destruct C; contradiction.
    - split; [|discriminate]. rewrite <- app_assoc. apply G. discriminate. }
  destruct R as [(w & -> & B)|[(neg & ci & sq & x & -> & ->)|(w & k & o & -> & I & B)]].
  - assert (NE : w <> []). { intros ->. inversion B as [neg X|neg X|X|X|neg star o z d W X]; try (destruct neg; discriminate X); try discriminate X. destruct (whole_head _ _ W) as (? & ? & D & _). rewrite D in X. destruct neg, star, o as [[]|]; discriminate X. }
    destruct (G w r NE) as (A & _). split; [exact A|]. destruct w; [contradiction|discriminate].
  - apply H; discriminate.
  - apply H; discriminate.
Qed.
Lemma begins : forall l t s r, reads st l t s -> ~ closer (t ++ r) /\ t <> [].
Proof.
  assert (C : forall t s r, reads st Conjunction t s -> ~ closer (t ++ r) /\ t <> []).
  { intros t s r R. apply conjunction_chain in R. destruct R as (p0 & s0 & rest & A & _ & -> & _). destruct (alone_begins p0 s0 (flat_map (fun x => letters st (str " and ") ++ fst x) rest ++ r) A) as (B & NE). rewrite <- app_assoc. split; [exact B|]. destruct p0; [contradiction|discriminate]. }
  intros [] t s r R; [eapply alone_begins; eassumption|eapply C; eassumption|]. apply disjunction_chain in R. destruct R as (p0 & s0 & rest & A & _ & -> & _). destruct (C p0 s0 (flat_map (fun x => letters st (str " or ") ++ fst x) rest ++ r) A) as (B & NE). rewrite <- app_assoc. split; [exact B|]. destruct p0; [contradiction|discriminate].
Qed.
Lemma comma_stop : forall r, stop Disjunction (grayed st (str ", ") ++ r).
Proof. intros r. right. left. exists 44, (grayed st [32] ++ r). split; [reflexivity|right; reflexivity]. Qed.
Lemma list_one : forall n, one_way Disjunction n -> one_way_list n.
Proof.
  intros n O t l t' l' r r' L R R' C C' H H' E. revert t' l' R' E. induction R as [|o s R|o s p l R RL IH NE]; intros t' l' R' E; inversion R' as [|o' s' R1|o' s' p' m R1 RL' NE']; subst.
  - split; reflexivity.
  - exfalso. apply (proj1 (begins _ _ _ r' R1)). rewrite <- E. exact C.
  - exfalso. cbn [app] in E. rewrite <- app_assoc in E. apply (proj1 (begins _ _ _ (( grayed st (str ", ") ++ p') ++ r') R1)). rewrite <- E. exact C.
  - exfalso. apply (proj1 (begins _ _ _ r R)). cbn [app] in E. rewrite E. exact C'.
  - destruct (O o s t' s' r r' L R R1 (or_intror (or_introl C)) (or_intror (or_introl C')) E) as (-> & ->). split; reflexivity.
  - exfalso. rewrite <- !app_assoc in E. destruct (O o s o' s' r _ L R R1 (or_intror (or_introl C)) (comma_stop _) E) as (-> & ->). apply app_inv_head in E. subst r. cbn in H. discriminate H.
  - exfalso. apply (proj1 (begins _ _ _ ((grayed st (str ", ") ++ p) ++ r) R)). rewrite app_assoc. cbn [app] in E. rewrite E. exact C'.
  - exfalso. rewrite <- !app_assoc in E. rewrite !app_length in L. destruct (O o s t' s' _ r' ltac:(lia) R R1 (comma_stop _) (or_intror (or_introl C')) E) as (-> & ->). apply app_inv_head in E. subst r'. cbn in H'. discriminate H'.
  - rewrite <- !app_assoc in E. rewrite !app_length in L. destruct (O o s o' s' _ _ ltac:(lia) R R1 (comma_stop _) (comma_stop _) E) as (-> & ->). apply app_inv_head in E. apply app_inv_head in E. destruct (IH ltac:(lia) p' m RL' E) as (-> & ->). split; reflexivity.
Qed.
Lemma all_one : forall n, one_way Disjunction n /\ one_way_list n.
Proof.
  intros n. induction n as [n IH] using lt_wf_ind. assert (D : one_way Disjunction n) by (apply disjunction_one, conjunction_one, alone_one; intros m L; apply IH; exact L). split; [exact D|]. apply list_one, D.
Qed.
Lemma reading_one : forall t s s', reads st Disjunction t s -> reads st Disjunction t s' -> s = s'.
Proof. intros t s s' R R'. destruct (all_one (length t)) as (O & _). destruct (O t s t s' [] [] (le_n _) R R' (or_introl eq_refl) (or_introl eq_refl) eq_refl) as (_ & E). exact E. Qed.
End one.
