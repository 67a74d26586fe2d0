(** Proofs about reading expectations (C80): there is a reading, and it says what the matcher tests. *)
From Coq Require Import List NArith ZArith Bool Arith Lia.
From Verif Require Import Base StrModel LineModel LineSpec JunitModel MessageModel MessageSpec MessageProofs FailModel MatcherModel MatcherSpec MatcherProofs2 ValueModel ValueSpec ValueProofs ValueProofs2 ExpectModel ExpectSpec ExpectProofs.
Import ListNotations.
Local Open Scope N_scope.

Fixpoint expected_all (P : expected -> Prop)
  (H : forall m, (forall k, (match m with
     | XPoly _ a | XNot a | XCaseLess a | XSpaceLess a | XPass a | XElements _ a => k = a
     | XCond _ a b | XAnd a b | XOr a b | XPair a b | XEvery2 a b | XHas2 _ a b => k = a \/ k = b
     | XAllOf l | XAnyOf l | XNoneOf l | XListOf l => In k l
     | _ => False end) -> P k) -> P m) (m : expected) {struct m} : P m.
Proof.
  apply H. destruct m; intros k0 K; cbn in K;
    lazymatch type of K with
    | False => destruct K
    | _ \/ _ => destruct K as [->| ->]; apply expected_all; exact H
    | _ = _ => rewrite K; apply expected_all; exact H
    | _ => idtac
    end.
  all: revert k0 K; induction l as [|x l IH]; intros k0 K; [destruct K|destruct K as [<-|K]; [apply expected_all; exact H|apply IH, K]].
Defined.

Lemma forallb_map : forall (A B : Type) (g : A -> B) (f : B -> bool) (l : list A), forallb f (map g l) = forallb (fun x => f (g x)) l.
Proof. intros A B g f l. induction l as [|x l IH]; [reflexivity|]. cbn. rewrite IH. reflexivity. Qed.
Lemma existsb_map : forall (A B : Type) (g : A -> B) (f : B -> bool) (l : list A), existsb f (map g l) = existsb (fun x => f (g x)) l.
Proof. intros A B g f l. induction l as [|x l IH]; [reflexivity|]. cbn. rewrite IH. reflexivity. Qed.
Definition lev (l : line) : level := if has_word or_word l then Disjunction else if has_word and_word l then Conjunction else Alone.
Section sound.
Variables (st : styles) (I : leaf -> bool -> bool -> MatcherModel.val -> bool).
Hypothesis PL : plainly st.
Lemma lift_alone : forall l o s, reads st Alone o s -> reads st l o s.
Proof. intros [] o s R; [exact R|apply r_alone, R|apply r_conj, r_alone, R]. Qed.
Lemma lift_conj : forall l o s, has_word and_word l = true -> reads st Conjunction o s -> reads st (lev l) o s.
Proof. intros l o s H R. unfold lev. rewrite H. destruct (has_word or_word l); [apply r_conj, R|exact R]. Qed.
Lemma lift_any : forall l o s, reads st l o s -> reads st Disjunction o s.
Proof. intros [] o s R; [apply r_conj, r_alone, R|apply r_conj, R|exact R]. Qed.
Lemma leaves_mark : forall (b : bool) (w : bytes), is_style w = false -> leaves st (if b then [w] else []) (letters st (mark b w)).
Proof. intros [] w H; [apply leaves_word, H|apply leaves_nil]. Qed.
Lemma pre_leaves : forall c ns, is_style ns = false -> leaves st (pre false c ns) (letters st (mark (c_neg c) ns ++ mark (c_ci c) (str "~") ++ mark (c_sq c) (str "*"))).
Proof.
  intros c ns H. unfold pre. cbn [negb andb]. rewrite !letters_app. apply leaves_app; [apply leaves_mark, H|]. apply leaves_app; apply leaves_mark; reflexivity.
Qed.
Lemma pre'_leaves : forall c ns, is_style ns = false -> leaves st (pre' false c ns) (letters st (mark (c_neg c) ns ++ mark (c_sq c) (str "*"))).
Proof. intros c ns H. unfold pre'. pose proof (pre_leaves (upd_ci c false) ns H) as L. exact L. Qed.
Lemma paren_leaves : forall l o, leaves st l o -> leaves st (gray (str "(") ++ l ++ gray (str ")")) (grayed st (str "(") ++ o ++ grayed st (str ")")).
Proof. intros l o L. apply leaves_app; [apply gray_leaves; [exact PL|reflexivity]|]. apply leaves_app; [exact L|apply gray_leaves; [exact PL|reflexivity]]. Qed.
Lemma text_leaves : forall s, sane s -> leaves st (print true (VText s)) (grayed st [34] ++ letters st s ++ grayed st [34]).
Proof.
  intros s (A & B). cbn [print]. unfold print_text, quote. rewrite c_str_id by exact A. exact (between_leaves st true 34 s PL (calm s B)).
Qed.
Lemma int_leaves : forall z, leaves st (print true (VInt z)) (letters st (to_string_int z)).
Proof.
  intros z. cbn [print]. destruct (int_text z) as (-> & W). apply leaves_word, calm. destruct W as [(_ & F & _)|(_ & e & -> & F & _)]; rewrite Forall_forall in F; [intros K; apply F in K; lia|intros [K|K]; [discriminate|apply F in K; lia]].
Qed.
Definition fine (m : expected) (c : ctx) : Prop :=
  exists o s, leaves st (expection false m c) o /\ reads st (lev (expection false m c)) o s /\ (forall v, holds I s v = xorb (c_neg c) (truth (tested I m) (c_ci c) (c_sq c) v)).
Lemma holds_negated : forall b s v, holds I (negated b s) v = xorb b (holds I s v).
Proof. intros [] s v; cbn; destruct (holds I s v); reflexivity. Qed.
Lemma alone_fine : forall m c o s, leaves st (expection false m c) o -> reads st Alone o s -> (forall v, holds I s v = xorb (c_neg c) (truth (tested I m) (c_ci c) (c_sq c) v)) -> fine m c.
Proof. intros m c o s L R H. exists o, s. split; [exact L|]. split; [apply lift_alone, R|exact H]. Qed.
Lemma list_fine : forall l c, (forall m, In m l -> fine m (upd_neg c false)) ->
  exists o ss, leaves st (separated (map (fun m => expection false m (upd_neg c false)) l) true) o /\ reads_list st o ss /\ (forall v, map (fun s => holds I s v) ss = map (fun m => truth (tested I m) (c_ci c) (c_sq c) v) l).
Proof.
  intros l c H.
  assert (G : exists os ss, Forall2 (leaves st) (map (fun m => expection false m (upd_neg c false)) l) os /\ Forall2 (reads st Disjunction) os ss /\ (forall v, map (fun s => holds I s v) ss = map (fun m => truth (tested I m) (c_ci c) (c_sq c) v) l)).
  { induction l as [|m l IH].
    - exists [], []. repeat split; constructor.
    - destruct IH as (os & ss & A & B & C); [intros k K; apply H; right; exact K|]. destruct (H m (or_introl eq_refl)) as (o & s & L & R & T). exists (o :: os), (s :: ss).
      split; [constructor; assumption|]. split; [constructor; [eapply lift_any; exact R|exact B]|]. intros v. cbn [map]. rewrite C, T. cbn. destruct (truth _ _ _ _); reflexivity. }
  destruct G as (os & ss & A & B & C). exists (listed st os), ss. split; [apply separated_first; assumption|]. split; [|exact C].
  clear A C. induction B as [|o s os ss R B IH]; [constructor|]. destruct os as [|o' os].
  - inversion B; subst. apply rl_one, R.
  - change (listed st (o :: o' :: os)) with (o ++ grayed st (str ", ") ++ listed st (o' :: os)). apply rl_more; [exact R|exact IH|]. intros ->. inversion B.
Qed.
Lemma several_fine : forall w l c m f, is_style w = false -> c_sq c = false ->
  expection false m c = pre' false c bang ++ [w] ++ gray (str "(") ++ separated (map (fun m1 => expection false m1 (upd_neg c false)) l) true ++ gray (str ")") ->
  (forall ss, several w ss = Some (f ss)) -> (forall m1, In m1 l -> fine m1 (upd_neg c false)) ->
  (forall ss v, map (fun s => holds I s v) ss = map (fun m => truth (tested I m) (c_ci c) (c_sq c) v) l -> holds I (f ss) v = truth (tested I m) (c_ci c) (c_sq c) v) -> fine m c.
Proof.
  intros w l c m f W SQ E SV H T. destruct (list_fine l c H) as (o & ss & L & R & V).
  eapply alone_fine with (o := letters st (mark (c_neg c) not_mark ++ w) ++ grayed st (str "(") ++ o ++ grayed st (str ")")) (s := negated (c_neg c) (f ss)).
  - rewrite E. rewrite letters_app, <- app_assoc. apply leaves_app. { pose proof (pre'_leaves c bang eq_refl) as P. rewrite SQ in P. cbn [mark] in P. rewrite app_nil_r in P. exact P. }
    apply leaves_app; [apply leaves_word, W|apply paren_leaves, L].
  - apply r_several with (l := ss); [apply SV|exact R].
  - intros v. rewrite holds_negated. f_equal. apply T, V.
Qed.
Lemma xor_false : forall b, xorb false b = b. Proof. intros []; reflexivity. Qed.
Lemma fine_all : forall m c, readable (c_neg c) (c_ci c) (c_sq c) m -> fine m c.
Proof.
  induction m as [m IH] using expected_all. intros c RD. remember (c_neg c) as neg eqn:EN. remember (c_ci c) as ci eqn:EC. remember (c_sq c) as sq eqn:ES.
  destruct RD as [ci sq z|s SA|neg ci sq f m RD|neg ci sq|neg ci sq|neg ci sq b|neg ci sq z|neg ci sq o z|neg ci sq s SA|neg ci sq name s IN SA|neg ci sq m RD|neg ci sq b mt mf RT RF|neg ci ml mr RL RR|neg ci ml mr RL RR|neg ci l FA|neg ci l FA|neg ci l FA|neg ci sq m RD|neg ci sq m RD].
  - eapply alone_fine; [apply int_leaves|apply r_simple; apply (s_number st false false z); apply int_text|]. intros v. cbn. rewrite <- EN. symmetry. apply xor_false.
  - eapply alone_fine; [apply text_leaves, SA|apply r_simple; apply (s_same st false false false s)|]. intros v. cbn. rewrite <- EN, <- EC, <- ES. symmetry. apply xor_false.
  - destruct (IH m eq_refl (configure f c)) as (o & s & L & R & T).
    { cbn. rewrite <- EN, <- EC, <- ES. exact RD. }
    exists o, s. split; [exact L|]. split; [exact R|]. intros v. rewrite T. cbn. destruct (f_neg f), (c_neg c), (truth _ _ _ _); reflexivity.
  - eapply alone_fine with (o := letters st (mark neg not_mark ++ str "Any")); [|apply r_simple, s_any|].
    + cbn [expection]. rewrite <- EN. destruct neg; apply leaves_word; reflexivity.
    + intros v. rewrite holds_negated, EN. reflexivity.
  - eapply alone_fine with (o := letters st (mark neg not_mark ++ str "NULL")); [|apply r_simple, s_null|].
    + cbn [expection]. rewrite <- EN. destruct neg; apply leaves_word; reflexivity.
    + intros v. rewrite holds_negated, EN. reflexivity.
  - assert (Q : (if b then c_neg c else negb (c_neg c)) = xorb (negb b) neg) by (rewrite <- EN; destruct b, neg; reflexivity).
    destruct (xorb (negb b) neg) eqn:X.
    + eapply alone_fine with (o := letters st (str "false")); [|apply r_simple, s_false|].
      * cbn [expection]. rewrite Q. apply leaves_word; reflexivity.
      * intros v. rewrite <- EN. destruct b, neg; try discriminate X; cbn; destruct (I LTrue false false v); reflexivity.
    + eapply alone_fine with (o := letters st (str "true")); [|apply r_simple, s_true|].
      * cbn [expection]. rewrite Q. apply leaves_word; reflexivity.
      * intros v. rewrite <- EN. destruct b, neg; try discriminate X; cbn; destruct (I LTrue false false v); reflexivity.
  - eapply alone_fine; [|apply r_simple; apply (s_number st neg sq z (to_string_int z)); apply int_text|].
    + cbn [expection]. rewrite app_assoc, letters_app. apply leaves_app; [|apply int_leaves]. rewrite EN, ES. apply pre'_leaves. reflexivity.
    + intros v. rewrite holds_negated, EN. reflexivity.
  - eapply alone_fine; [|apply r_simple; apply (s_compare st neg sq o z (to_string_int z)); apply int_text|].
    + cbn [expection]. rewrite (app_assoc (mark neg not_mark)), letters_app. apply leaves_app; [rewrite EN, ES; apply pre'_leaves; reflexivity|].
      rewrite letters_app. apply leaves_app; [destruct o; apply leaves_word; reflexivity|]. replace (print match o with GreaterEqual => true | _ => false end (VInt z)) with (print true (VInt z)) by (destruct o; reflexivity). apply int_leaves.
    + intros v. rewrite holds_negated, EN. reflexivity.
  - eapply alone_fine; [|apply r_simple; apply (s_same st neg ci sq (if sq then squash false s else s))|].
    + cbn [expection]. apply leaves_app; [rewrite EN, EC, ES; apply pre_leaves; reflexivity|]. unfold squashed. rewrite <- ES. apply text_leaves, SA.
    + intros v. rewrite holds_negated, EN, EC, ES. reflexivity.
  - assert (NS : is_style name = false) by (cbn [ways In] in IN; repeat (destruct IN as [<-|IN]; [reflexivity|]); destruct IN).
    eapply alone_fine; [|apply r_simple; apply (s_named st neg ci sq name s IN)|].
    + cbn [expection]. replace (mark neg not_mark ++ mark ci (str "~") ++ mark sq (str "*") ++ name) with ((mark neg not_mark ++ mark ci (str "~") ++ mark sq (str "*")) ++ name) by (rewrite <- !app_assoc; reflexivity).
      rewrite letters_app, <- app_assoc. apply leaves_app; [rewrite EN, EC, ES; exact (pre_leaves c bang eq_refl)|].
      apply leaves_app; [apply leaves_word, NS|]. apply paren_leaves, text_leaves, SA.
    + intros v. rewrite holds_negated, EN, EC, ES. reflexivity.
  - destruct (IH m eq_refl (upd_neg c (negb (c_neg c)))) as (o & s & L & R & T).
    { cbn. rewrite <- EN, <- EC, <- ES. exact RD. }
    exists o, s. split; [exact L|]. split; [exact R|]. intros v. rewrite T. cbn. destruct (c_neg c), (truth _ _ _ _); reflexivity.
  - destruct b.
    + destruct (IH mt (or_introl eq_refl) c) as (o & s & L & R & T); [rewrite <- EN, <- EC, <- ES; exact RT|]. exists o, s. split; [exact L|]. split; [exact R|]. intros v. rewrite T. reflexivity.
    + destruct (IH mf (or_intror eq_refl) c) as (o & s & L & R & T); [rewrite <- EN, <- EC, <- ES; exact RF|]. exists o, s. split; [exact L|]. split; [exact R|]. intros v. rewrite T. reflexivity.
  - destruct (IH ml (or_introl eq_refl) (upd_neg c false)) as (o1 & s1 & L1 & R1 & T1); [cbn; rewrite <- EC, <- ES; exact RL|].
    destruct (IH mr (or_intror eq_refl) (upd_neg c false)) as (o2 & s2 & L2 & R2 & T2); [cbn; rewrite <- EC, <- ES; exact RR|].
    set (sl := expection false ml (upd_neg c false)) in *. set (sr := expection false mr (upd_neg c false)) in *.
    assert (A : exists p1, leaves st (paren_if (has_word or_word sl) sl) p1 /\ reads st Conjunction p1 s1).
    { unfold lev in R1. destruct (has_word or_word sl); cbn [paren_if].
      - eexists. split; [apply paren_leaves, L1|]. apply r_alone, r_paren, R1.
      - exists o1. split; [exact L1|]. destruct (has_word and_word sl); [exact R1|apply r_alone, R1]. }
    assert (B : exists p2, leaves st (paren_if (has_word and_word sr || has_word or_word sr) sr) p2 /\ reads st Alone p2 s2).
    { unfold lev in R2. destruct (has_word or_word sr); [rewrite orb_true_r; cbn [paren_if]; eexists; split; [apply paren_leaves, L2|apply r_paren, R2]|]. rewrite orb_false_r. destruct (has_word and_word sr); cbn [paren_if].
      - eexists. split; [apply paren_leaves, L2|]. apply r_paren, r_conj, R2.
      - exists o2. split; [exact L2|exact R2]. }
    destruct A as (p1 & A1 & A2), B as (p2 & B1 & B2).
    pose proof (r_and st p1 s1 p2 s2 A2 B2) as RA.
    assert (LA : leaves st (paren_if (has_word or_word sl) sl ++ [and_word] ++ paren_if (has_word and_word sr || has_word or_word sr) sr) (p1 ++ letters st (str " and ") ++ p2)).
    { apply leaves_app; [exact A1|]. apply leaves_app; [apply leaves_word; reflexivity|exact B1]. }
    assert (TT : forall v, holds I (Both s1 s2) v = truth (tested I (XAnd ml mr)) (c_ci c) (c_sq c) v).
    { intros v. cbn [holds tested truth]. rewrite T1, T2. cbn. destruct (truth (tested I ml) (c_ci c) (c_sq c) v), (truth (tested I mr) (c_ci c) (c_sq c) v); reflexivity. }
    destruct neg.
    + eapply alone_fine with (s := No (Both s1 s2)).
      * cbn [expection]. fold sl sr. rewrite <- EN. unfold pre', pre. cbn [negb andb c_neg c_ci c_sq upd_ci]. rewrite <- EN, <- ES. cbn [paren_if app]. apply (leaves_app st [bang]); [apply leaves_word; reflexivity|]. apply paren_leaves, LA.
      * apply r_not. eapply r_conj. exact RA.
      * intros v. cbn [holds]. pose proof (TT v) as TV. cbn [holds] in TV. rewrite TV, <- EN. reflexivity.
    + exists (p1 ++ letters st (str " and ") ++ p2), (Both s1 s2).
      assert (E : expection false (XAnd ml mr) c = paren_if (has_word or_word sl) sl ++ [and_word] ++ paren_if (has_word and_word sr || has_word or_word sr) sr).
      { cbn [expection]. fold sl sr. unfold pre', pre. cbn [negb andb c_neg c_ci c_sq upd_ci]. rewrite <- EN, <- ES. reflexivity. }
      rewrite E. split; [exact LA|]. split; [|intros v; rewrite TT, <- EN; symmetry; apply xor_false].
      apply lift_conj; [|exact RA]. unfold has_word. rewrite !existsb_app. cbn [existsb]. assert (X : bytes_eqb and_word and_word = true) by (apply bytes_eqb_eq; reflexivity). rewrite X. cbn. apply orb_true_r.
  - destruct (IH ml (or_introl eq_refl) (upd_neg c false)) as (o1 & s1 & L1 & R1 & T1); [cbn; rewrite <- EC, <- ES; exact RL|].
    destruct (IH mr (or_intror eq_refl) (upd_neg c false)) as (o2 & s2 & L2 & R2 & T2); [cbn; rewrite <- EC, <- ES; exact RR|].
    set (sl := expection false ml (upd_neg c false)) in *. set (sr := expection false mr (upd_neg c false)) in *.
    assert (B : exists p2, leaves st (paren_if (has_word or_word sr) sr) p2 /\ reads st Conjunction p2 s2).
    { unfold lev in R2. destruct (has_word or_word sr); cbn [paren_if].
      - eexists. split; [apply paren_leaves, L2|]. apply r_alone, r_paren, R2.
      - exists o2. split; [exact L2|]. destruct (has_word and_word sr); [exact R2|apply r_alone, R2]. }
    destruct B as (p2 & B1 & B2). apply lift_any in R1.
    pose proof (r_or st o1 s1 p2 s2 R1 B2) as RA.
    assert (LA : leaves st (sl ++ [or_word] ++ paren_if (has_word or_word sr) sr) (o1 ++ letters st (str " or ") ++ p2)).
    { apply leaves_app; [exact L1|]. apply leaves_app; [apply leaves_word; reflexivity|exact B1]. }
    assert (TT : forall v, holds I (Either s1 s2) v = truth (tested I (XOr ml mr)) (c_ci c) (c_sq c) v).
    { intros v. cbn [holds tested truth]. rewrite T1, T2. cbn. destruct (truth (tested I ml) (c_ci c) (c_sq c) v), (truth (tested I mr) (c_ci c) (c_sq c) v); reflexivity. }
    destruct neg.
    + eapply alone_fine with (s := No (Either s1 s2)).
      * cbn [expection]. fold sl sr. rewrite <- EN. unfold pre', pre. cbn [negb andb c_neg c_ci c_sq upd_ci]. rewrite <- EN, <- ES. cbn [paren_if app]. apply (leaves_app st [bang]); [apply leaves_word; reflexivity|]. apply paren_leaves, LA.
      * apply r_not. exact RA.
      * intros v. cbn [holds]. pose proof (TT v) as TV. cbn [holds] in TV. rewrite TV, <- EN. reflexivity.
    + exists (o1 ++ letters st (str " or ") ++ p2), (Either s1 s2).
      assert (E : expection false (XOr ml mr) c = sl ++ [or_word] ++ paren_if (has_word or_word sr) sr).
      { cbn [expection]. fold sl sr. unfold pre', pre. cbn [negb andb c_neg c_ci c_sq upd_ci]. rewrite <- EN, <- ES. reflexivity. }
      rewrite E. split; [exact LA|]. split; [|intros v; rewrite TT, <- EN; symmetry; apply xor_false].
      unfold lev. replace (has_word or_word (sl ++ [or_word] ++ paren_if (has_word or_word sr) sr)) with true; [exact RA|]. symmetry. unfold has_word. rewrite !existsb_app. cbn [existsb]. assert (X : bytes_eqb or_word or_word = true) by (apply bytes_eqb_eq; reflexivity). rewrite X. cbn. apply orb_true_r.
  - apply several_fine with (w := str "AllOf") (l := l) (f := All); try reflexivity; [symmetry; exact ES| |].
    + intros m1 M. apply IH; [exact M|]. cbn. rewrite <- EC, <- ES. rewrite Forall_forall in FA. apply FA, M.
    + intros ss v E. cbn [holds tested truth]. rewrite forallb_map. rewrite <- (forallb_map _ _ (fun s => holds I s v) (fun b => b)), E, forallb_map. reflexivity.
  - apply several_fine with (w := str "AnyOf") (l := l) (f := Some_); try reflexivity; [symmetry; exact ES| |].
    + intros m1 M. apply IH; [exact M|]. cbn. rewrite <- EC, <- ES. rewrite Forall_forall in FA. apply FA, M.
    + intros ss v E. cbn [holds tested truth]. rewrite existsb_map. rewrite <- (existsb_map _ _ (fun s => holds I s v) (fun b => b)), E, existsb_map. reflexivity.
  - apply several_fine with (w := str "NoneOf") (l := l) (f := None_); try reflexivity; [symmetry; exact ES| |].
    + intros m1 M. apply IH; [exact M|]. cbn. rewrite <- EC, <- ES. rewrite Forall_forall in FA. apply FA, M.
    + intros ss v E. cbn [holds tested truth]. rewrite forallb_map. rewrite <- (existsb_map _ _ (fun s => holds I s v) (fun b => b)), E, existsb_map. clear. induction l as [|x l IH]; [reflexivity|]. cbn. rewrite negb_orb, IH. reflexivity.
  - destruct (IH m eq_refl (upd_ci c true)) as (o & s & L & R & T); [cbn; rewrite <- EN, <- ES; exact RD|]. exists o, s. split; [exact L|]. split; [exact R|]. intros v. rewrite T. reflexivity.
  - destruct (IH m eq_refl (upd_sq c true)) as (o & s & L & R & T); [cbn; rewrite <- EN, <- EC; exact RD|]. exists o, s. split; [exact L|]. split; [exact R|]. intros v. rewrite T. reflexivity.
Qed.
Lemma tested_logical : forall m a b c, readable a b c m -> logical (tested I m).
Proof.
  induction m as [m IH] using expected_all. intros a b c RD.
  assert (G : forall l, (forall k, In k l -> exists a b c, readable a b c k) -> (forall k, In k l -> forall a b c, readable a b c k -> logical (tested I k)) -> (fix all l := match l with [] => True | m1 :: r => logical m1 /\ all r end) (map (tested I) l)).
  { induction l as [|x l IHl]; intros A B; [exact Logic.I|]. cbn [map]. split; [destruct (A x (or_introl eq_refl)) as (a1 & b1 & c1 & R); eapply B; [left; reflexivity|exact R]|]. apply IHl; intros k K; [apply A|apply B]; right; exact K. }
  destruct RD; cbn [tested logical]; auto; try (eapply IH; [reflexivity|eassumption]); try (split; [eapply IH; [left; reflexivity|eassumption]|eapply IH; [right; reflexivity|eassumption]]).
  all: apply G; [intros k K; rewrite Forall_forall in H; eexists _, _, _; apply H, K|exact IH].
Qed.
Lemma says_ok : forall m c, readable (c_neg c) (c_ci c) (c_sq c) m ->
  (exists s, reads st Disjunction (ink st (expection false m c)) s) /\
  (forall s v, reads st Disjunction (ink st (expection false m c)) s -> holds I s v = isnull (matches (tested I m) c v)) /\
  behind_line st (expection false m c) = st.
Proof.
  intros m c RD. destruct (fine_all m c RD) as (o & s & (L1 & L2) & R & T). apply lift_any in R. rewrite L1. split; [exists s; exact R|]. split; [|exact L2].
  intros s' v R'. rewrite (reading_one st o s' s R' R), T. symmetry. apply truth_verdict. eapply tested_logical. exact RD.
Qed.
End sound.
