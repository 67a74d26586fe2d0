(** Proofs about reading expectations (C80): containers, and texts that mislead. *)
From Coq Require Import List NArith ZArith Bool Arith Lia.
From Verif Require Import Base StrModel LineModel LineSpec JunitModel MessageModel MessageSpec MessageProofs FailModel MatcherModel MatcherSpec MatcherProofs2 ValueModel ValueSpec ValueProofs ValueProofs2 ExpectModel ExpectSpec ExpectProofs ExpectProofs2.
Import ListNotations.
Local Open Scope N_scope.

Lemma post_leaves : forall st c, leaves st (post c) (if (c_times c =? 1)%Z then [] else letters st (str " * " ++ to_string_int (c_times c))).
Proof. intros st c. unfold post. destruct (c_times c =? 1)%Z; [apply leaves_nil|]. rewrite letters_app. apply leaves_app; [apply leaves_word; reflexivity|]. exact (int_leaves st (c_times c)). Qed.
Lemma elements_ok : forall st (I : leaf -> bool -> bool -> MatcherModel.val -> bool) name m c, ~ In (str "dark gray") st -> ~ In 27 name -> c_ci c = false -> readable false false (c_sq c) m ->
  exists o t, ink st (expection false (XElements name m) c) =
      letters st (mark (c_neg c) not_mark ++ mark (c_sq c) (str "*") ++ name) ++ grayed st (str "(") ++ o ++ grayed st (str ")") ++ (if (c_times c =? 1)%Z then [] else letters st (str " * " ++ t)) /\
    whole (c_times c) t /\ (exists s, reads st Disjunction o s) /\ (forall s v, reads st Disjunction o s -> holds I s v = isnull (matches (tested I m) (inner c) v)) /\
    behind_line st (expection false (XElements name m) c) = st.
Proof.
  intros st I name m c PL NE CI RD. set (d := upd_neg (upd_ci c false) false).
  destruct (fine_all st I PL m d RD) as (o & s & L & R & T). apply lift_any in R.
  assert (LL : leaves st (expection false (XElements name m) c) (letters st (mark (c_neg c) not_mark ++ mark (c_sq c) (str "*") ++ name) ++ grayed st (str "(") ++ o ++ grayed st (str ")") ++ (if (c_times c =? 1)%Z then [] else letters st (str " * " ++ to_string_int (c_times c))))).
  { cbn [expection]. fold d. rewrite (app_assoc (mark _ _) (mark _ _) name), letters_app, <- app_assoc. apply leaves_app; [exact (pre'_leaves st c bang eq_refl)|]. apply leaves_app; [apply leaves_word, calm, NE|].
    apply leaves_app; [apply gray_leaves; [exact PL|reflexivity]|]. apply leaves_app; [exact L|]. apply leaves_app; [apply gray_leaves; [exact PL|reflexivity]|]. apply post_leaves. }
  exists o, (to_string_int (c_times c)). split; [apply LL|]. split; [apply int_text|]. split; [exists s; exact R|]. split; [|apply LL].
  intros s' v R'. rewrite (reading_one st o s' s R' R), T. rewrite truth_verdict by (eapply tested_logical; exact RD). cbn. rewrite CI. reflexivity.
Qed.
Lemma items_ok : forall st (I : leaf -> bool -> bool -> MatcherModel.val -> bool) l c, ~ In (str "dark gray") st -> Forall (readable false (c_ci c) (c_sq c)) l ->
  exists o ss, ink st (expection false (XListOf l) c) = letters st (mark (c_neg c) not_mark ++ mark (c_sq c) (str "*")) ++ grayed st (str "[") ++ o ++ grayed st (str "]") /\
    reads_list st o ss /\ (forall v, map (fun s => holds I s v) ss = map (fun m => isnull (matches (tested I m) (inner c) v)) l) /\ behind_line st (expection false (XListOf l) c) = st.
Proof.
  intros st I l c PL F. rewrite Forall_forall in F.
  destruct (list_fine st I PL l c) as (o & ss & L & R & V); [intros m M; apply fine_all; [exact PL|]; cbn; apply F, M|].
  assert (LL : leaves st (expection false (XListOf l) c) (letters st (mark (c_neg c) not_mark ++ mark (c_sq c) (str "*")) ++ grayed st (str "[") ++ o ++ grayed st (str "]"))).
  { cbn [expection]. apply leaves_app; [exact (pre'_leaves st c bang eq_refl)|]. apply leaves_app; [apply gray_leaves; [exact PL|reflexivity]|]. apply leaves_app; [exact L|]. apply gray_leaves; [exact PL|reflexivity]. }
  exists o, ss. split; [apply LL|]. split; [exact R|]. split; [|apply LL]. intros v. rewrite V. apply map_ext_in. intros m M. rewrite truth_verdict by (eapply tested_logical; apply F, M). cbn. symmetry. apply xor_false.
Qed.

(** texts that mislead *)
Lemma plain_lost : exists m n v, ink [] (expection false m ctx0) = ink [] (expection false n ctx0) /\ isnull (matches (tested demo m) ctx0 v) <> isnull (matches (tested demo n) ctx0 v) /\
  m = XPoly flags0 (XNot (XPlain (VInt 5))) /\ n = XPlain (VInt 5).
Proof. exists (XPoly flags0 (XNot (XPlain (VInt 5)))), (XPlain (VInt 5)), (VNum 5). split; [reflexivity|]. split; [vm_compute; discriminate|]. split; reflexivity. Qed.
Lemma case_lost : exists m n v, ink [] (expection false m ctx0) = ink [] (expection false n ctx0) /\ isnull (matches (tested demo m) ctx0 v) <> isnull (matches (tested demo n) ctx0 v) /\
  m = XPoly caseless_flags (XAllOf [XPlain (VText (str "abc"))]) /\ n = XPoly flags0 (XAllOf [XPlain (VText (str "abc"))]).
Proof. exists (XPoly caseless_flags (XAllOf [XPlain (VText (str "abc"))])), (XPoly flags0 (XAllOf [XPlain (VText (str "abc"))])), (VNum 1). split; [reflexivity|]. split; [vm_compute; discriminate|]. split; reflexivity. Qed.
Lemma pair_lost : exists m mm, ink [] (expection false m ctx0) = letters [] (str "!") ++ grayed [] (str "(") ++ letters [] (str "≥1") ++ grayed [] (str ", ") ++ letters [] (str "≥2") ++ grayed [] (str ")") /\
  isnull (matches mm ctx0 (MatcherModel.VPair (VNum 5) (VNum 5))) = true /\
  m = XPoly not_flags (XPair (XPoly not_flags (XOrder GreaterEqual (VInt 1))) (XPoly not_flags (XOrder GreaterEqual (VInt 2)))) /\
  mm = MPoly not_flags (MPair (tested demo (XPoly not_flags (XOrder GreaterEqual (VInt 1)))) (tested demo (XPoly not_flags (XOrder GreaterEqual (VInt 2))))).
Proof. eexists _, _. split; [|split; [|split; reflexivity]]; vm_compute; reflexivity. Qed.
Lemma first_run : forall l t s w r, reads [] l t s -> ~ In 32 w -> t = letters [] w ++ letters [] (32 :: r) -> bare w s \/ exists s', bare w s'.
Proof.
  assert (A : forall t s w r q, reads [] Alone t s -> ~ In 32 w -> t ++ q = letters [] w ++ letters [] (32 :: r) -> run_end [] q -> exists s', bare w s').
  { intros t s w r q R NI E Q. apply alone_shape in R. destruct R as [(u & -> & B)|[(neg & ci & sq & x & -> & ->)|(u & k & o & -> & K & B)]].
    - apply run_edge in E; [|eapply bare_space; exact B|exact NI|exact Q|right; reflexivity]. destruct E as (<- & _). exists s. exact B.
    - exfalso. unfold quote_body in E. rewrite <- !app_assoc in E. apply run_edge in E; [|apply marks_space|exact NI|left; reflexivity|right; reflexivity]. destruct E as (_ & E). discriminate E.
    - exfalso. rewrite <- !app_assoc in E. apply run_edge in E; [|eapply table_space; exact K|exact NI|left; reflexivity|right; reflexivity]. destruct E as (_ & E). discriminate E. }
  assert (C : forall t s w r q, reads [] Conjunction t s -> ~ In 32 w -> t ++ q = letters [] w ++ letters [] (32 :: r) -> run_end [] q -> exists s', bare w s').
  { intros t s w r q R NI E Q. apply conjunction_chain in R. destruct R as (p0 & s0 & rest & R & _ & -> & _). rewrite <- app_assoc in E. eapply A; [exact R|exact NI|exact E|]. destruct rest as [|x rest]; [exact Q|right; reflexivity]. }
  intros l t s w r R NI E. right. apply lift_any in R. apply disjunction_chain in R. destruct R as (p0 & s0 & rest & R & _ & -> & _). eapply C; [exact R|exact NI|exact E|]. destruct rest as [|x rest]; [exact Logic.I|right; reflexivity].
Qed.
Lemma stars_lost : exists m, ink [] (expection false m ctx0) = letters [] (str "**5 and *6") /\ (forall l s, ~ reads [] l (ink [] (expection false m ctx0)) s) /\ m = XPoly squash_flags (XAnd (XEq (VInt 5)) (XEq (VInt 6))).
Proof.
  eexists. split; [|split; [|reflexivity]]; [vm_compute; reflexivity|]. intros l s R.
  replace (ink [] (expection false (XPoly squash_flags (XAnd (XEq (VInt 5)) (XEq (VInt 6)))) ctx0)) with (letters [] (str "**5") ++ letters [] (32 :: str "and *6")) in R by (vm_compute; reflexivity).
  assert (G : exists s', bare (str "**5") s'). { destruct (first_run l _ s (str "**5") (str "and *6") R) as [G|G]; [cbn; intuition discriminate|reflexivity|exists s; exact G|exact G]. }
  destruct G as (s' & G). inversion G as [neg X|neg X|X|X|neg star o z d W X]; try (destruct neg; discriminate X); try discriminate X.
  destruct (whole_head _ _ W) as (x & r & D & XX & _). subst d. destruct neg, star, o as [[]|]; cbn in X; try discriminate X; injection X; intros; subst; destruct XX; lia.
Qed.
Lemma says_example : let m := XPoly flags0 (XNot (XAnd (XOr (XPoly flags0 (XEq (VInt 5))) (XPoly not_flags (XOrder Less (VInt (-3))))) (XPoly caseless_flags (XAllOf [XPoly flags0 (XText (str "a")); XPoly squash_flags (XNamed (str "Re") (str "b "))])))) in
  readable false false false m /\
  map snd (ink [] (expection false m ctx0)) = str "!((5 or !<-3) and AllOf(~""a"", ~*Re(""b "")))".
Proof.
  cbv zeta. split; [|vm_compute; reflexivity]. apply rd_poly, rd_not, rd_and; [apply rd_or; apply rd_poly; constructor|]. apply rd_poly, rd_allof. constructor; [apply rd_poly, rd_text; split; cbn; intuition discriminate|constructor; [|constructor]]. apply rd_poly, rd_named; [cbn; tauto|split; cbn; intuition discriminate].
Qed.
Lemma elements_example : let m := XPoly (apply_op flags0 (OpTimes 3)) (XElements (str "Has") (XPoly not_flags (XEq (VInt 7)))) in
  readable false false false (XPoly not_flags (XEq (VInt 7))) /\ map snd (ink [] (expection false m ctx0)) = str "Has(≠7) * 3" /\
  map snd (ink [] (expection false (XPoly not_flags (XListOf [XEq (VInt 1); XOrder Greater (VInt 2)])) ctx0)) = str "![1, >2]".
Proof. cbv zeta. split; [apply rd_poly; constructor|]. split; vm_compute; reflexivity. Qed.
Lemma same_ok : forall st (I : leaf -> bool -> bool -> MatcherModel.val -> bool) m n c d v, ~ In (str "dark gray") st -> readable (c_neg c) (c_ci c) (c_sq c) m -> readable (c_neg d) (c_ci d) (c_sq d) n ->
  ink st (expection false m c) = ink st (expection false n d) -> isnull (matches (tested I m) c v) = isnull (matches (tested I n) d v).
Proof.
  intros st I m n c d v PL R R' E. destruct (says_ok st I PL m c R) as ((s & S1) & H & _). destruct (says_ok st I PL n d R') as (_ & H' & _). rewrite <- (H s v S1). apply H'. rewrite <- E. exact S1.
Qed.
Lemma same_example : let m := XAnd (XAnd (XEq (VInt 1)) XAny) (XOrder Less (VInt 3)) in let n := XCond false XNull (XAnd (XNot (XNot (XAnd (XEq (VInt 1)) XAny))) (XPoly flags0 (XOrder Less (VInt 3)))) in
  readable false false false m /\ readable false false false n /\ ink [] (expection false m ctx0) = ink [] (expection false n ctx0) /\ map snd (ink [] (expection false m ctx0)) = str "1 and Any and <3" /\
  map snd (ink [] (expection false (XAnd (XEq (VInt 1)) (XAnd XAny (XOrder Less (VInt 3)))) ctx0)) = str "1 and (Any and <3)".
Proof. cbv zeta. repeat split; try (vm_compute; reflexivity); repeat (constructor; try apply rd_poly). Qed.
