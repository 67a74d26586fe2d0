(** Proofs about reading expectations (C80): keys and values, customised matchers, ranges, margins, JSON and memory. *)
From Coq Require Import List NArith ZArith Bool Arith Lia.
From Verif Require Import Base StrModel LineModel LineSpec JunitModel MessageModel MessageSpec MessageProofs FailModel MatcherModel MatcherSpec MatcherProofs2 ValueModel ValueSpec ValueProofs ValueProofs2 ExpectModel ExpectSpec ExpectProofs ExpectProofs2 ExpectProofs3.
Import ListNotations.
Local Open Scope N_scope.

Lemma part_fine : forall st (I : leaf -> bool -> bool -> MatcherModel.val -> bool) m c, ~ In (str "dark gray") st -> readable (c_neg c) (c_ci c) (c_sq c) m ->
  exists o, leaves st (expection false m c) o /\ (exists s, reads st Disjunction o s) /\ (forall s v, reads st Disjunction o s -> holds I s v = isnull (matches (tested I m) c v)).
Proof.
  intros st I m c PL RD. destruct (fine_all st I PL m c RD) as (o & s & L & R & T). apply lift_any in R. exists o. split; [exact L|]. split; [exists s; exact R|].
  intros s' v R'. rewrite (reading_one st o s' s R' R), T, truth_verdict by (eapply tested_logical; exact RD). reflexivity.
Qed.
Lemma part_inner : forall (I : leaf -> bool -> bool -> MatcherModel.val -> bool) m c v, readable false (c_ci c) (c_sq c) m ->
  isnull (matches (tested I m) (upd_neg c false) v) = isnull (matches (tested I m) (inner c) v).
Proof.
  intros I m c v RD. rewrite !truth_verdict by (eapply tested_logical; exact RD). reflexivity.
Qed.
Ltac grays PL := first [apply gray_leaves; [exact PL|reflexivity]].

Lemma keyed_ok : forall st (I : leaf -> bool -> bool -> MatcherModel.val -> bool) h k v c, ~ In (str "dark gray") st -> readable false (c_ci c) (c_sq c) k -> readable false (c_ci c) (c_sq c) v ->
  exists ok ov t, ink st (expection false (XHas2 h k v) c) =
      letters st (mark (c_neg c) not_mark ++ mark (c_sq c) (str "*") ++ has_title h) ++ grayed st (str "(") ++ has_parts st h ok ov ++ grayed st (str ")") ++ (if (c_times c =? 1)%Z then [] else letters st (str " * " ++ t)) /\
    whole (c_times c) t /\
    (exists s, reads st Disjunction ok s) /\ (forall s x, reads st Disjunction ok s -> holds I s x = isnull (matches (tested I k) (inner c) x)) /\
    (exists s, reads st Disjunction ov s) /\ (forall s x, reads st Disjunction ov s -> holds I s x = isnull (matches (tested I v) (inner c) x)) /\
    behind_line st (expection false (XHas2 h k v) c) = st.
Proof.
  intros st I h k v c PL RK RV.
  destruct (part_fine st I k (upd_neg c false) PL RK) as (ok & LK & EK & HK). destruct (part_fine st I v (upd_neg c false) PL RV) as (ov & LV & EV & HV).
  assert (LL : leaves st (expection false (XHas2 h k v) c) (letters st (mark (c_neg c) not_mark ++ mark (c_sq c) (str "*") ++ has_title h) ++ grayed st (str "(") ++ has_parts st h ok ov ++ grayed st (str ")") ++ (if (c_times c =? 1)%Z then [] else letters st (str " * " ++ to_string_int (c_times c))))).
  { cbn [expection]. rewrite (app_assoc (mark _ _) (mark _ _) (has_title h)), letters_app, <- app_assoc. apply leaves_app; [exact (pre'_leaves st c bang eq_refl)|].
    apply leaves_app; [destruct h; apply leaves_word; reflexivity|]. apply leaves_app; [grays PL|].
    apply leaves_app; [|apply leaves_app; [grays PL|apply post_leaves]]. destruct h; cbn [has_parts]; [|exact LK|exact LV].
    apply leaves_app; [exact LK|]. apply leaves_app; [apply leaves_word; reflexivity|exact LV]. }
  exists ok, ov, (to_string_int (c_times c)). split; [apply LL|]. split; [apply int_text|]. split; [exact EK|]. split; [intros s x R; rewrite (HK s x R); apply part_inner, RK|].
  split; [exact EV|]. split; [intros s x R; rewrite (HV s x R); apply part_inner, RV|]. apply LL.
Qed.
Lemma two_ok : forall st (I : leaf -> bool -> bool -> MatcherModel.val -> bool) (every : bool) k v c, ~ In (str "dark gray") st -> c_neg c = false -> readable false (c_ci c) (c_sq c) k -> readable false (c_ci c) (c_sq c) v ->
  let m := if every then XEvery2 k v else XPair k v in
  exists ok ov, ink st (expection false m c) = letters st (mark (c_sq c) (str "*") ++ (if every then str "Every" else [])) ++ grayed st (str "(") ++ ok ++ grayed st (str ", ") ++ ov ++ grayed st (str ")") /\
    (exists s, reads st Disjunction ok s) /\ (forall s x, reads st Disjunction ok s -> holds I s x = isnull (matches (tested I k) (inner c) x)) /\
    (exists s, reads st Disjunction ov s) /\ (forall s x, reads st Disjunction ov s -> holds I s x = isnull (matches (tested I v) (inner c) x)) /\
    behind_line st (expection false m c) = st.
Proof.
  intros st I every k v c PL NG RK RV m. assert (U : upd_neg c false = c) by (destruct c; cbn in NG; subst; reflexivity).
  destruct (part_fine st I k c PL) as (ok & LK & EK & HK); [rewrite NG; exact RK|]. destruct (part_fine st I v c PL) as (ov & LV & EV & HV); [rewrite NG; exact RV|].
  assert (LL : leaves st (expection false m c) (letters st (mark (c_sq c) (str "*") ++ (if every then str "Every" else [])) ++ grayed st (str "(") ++ ok ++ grayed st (str ", ") ++ ov ++ grayed st (str ")"))).
  { pose proof (pre'_leaves st c bang eq_refl) as PR. rewrite NG in PR. cbn [mark app] in PR. rewrite letters_app, <- app_assoc.
    assert (T : leaves st (gray (str "(") ++ expection false k c ++ gray (str ", ") ++ expection false v c ++ gray (str ")")) (grayed st (str "(") ++ ok ++ grayed st (str ", ") ++ ov ++ grayed st (str ")"))).
    { apply leaves_app; [grays PL|]. apply leaves_app; [exact LK|]. apply leaves_app; [grays PL|]. apply leaves_app; [exact LV|grays PL]. }
    unfold m. destruct every; cbn [expection].
    - apply leaves_app; [exact PR|]. apply leaves_app; [apply leaves_word; reflexivity|exact T].
    - apply leaves_app; [exact PR|exact T]. }
  exists ok, ov. split; [apply LL|]. split; [exact EK|]. split; [intros s x R; rewrite (HK s x R), <- U at 1; apply part_inner, RK|]. split; [exact EV|]. split; [intros s x R; rewrite (HV s x R), <- U at 1; apply part_inner, RV|]. apply LL.
Qed.
Lemma arguments_leaves : forall st vs, ~ In (str "dark gray") st -> Forall quiet vs -> leaves st (arguments vs) (listed st (map (pic st true) vs)).
Proof.
  intros st vs PL F. induction F as [|v vs Q F IH]; [exact (leaves_word st [] eq_refl)|]. cbn [arguments map listed]. destruct vs as [|w vs]; [apply pic_leaves; assumption|].
  cbn [map] in *. apply leaves_app; [apply pic_leaves; assumption|]. apply leaves_app; [grays PL|exact IH].
Qed.
Lemma all_shown : forall st rep vs, Forall quiet vs -> Forall2 (shown st rep) vs (map (pic st rep) vs).
Proof. intros st rep vs F. induction F; cbn [map]; constructor; [apply pic_shown; assumption|assumption]. Qed.
Lemma custom_ok : forall st name args c, ~ In (str "dark gray") st -> ~ In 27 name -> Forall quiet args ->
  exists os, Forall2 (shown st true) args os /\
    ink st (expection false (XCustom name args) c) = letters st (mark (c_neg c) not_mark ++ mark (c_ci c) (str "~") ++ mark (c_sq c) (str "*") ++ name) ++ grayed st (str "(") ++ listed st os ++ grayed st (str ")") /\
    behind_line st (expection false (XCustom name args) c) = st.
Proof.
  intros st name args c PL NE F. exists (map (pic st true) args). split; [apply all_shown, F|].
  assert (LL : leaves st (expection false (XCustom name args) c) (letters st (mark (c_neg c) not_mark ++ mark (c_ci c) (str "~") ++ mark (c_sq c) (str "*") ++ name) ++ grayed st (str "(") ++ listed st (map (pic st true) args) ++ grayed st (str ")"))).
  { cbn [expection]. rewrite (app_assoc (mark (c_ci c) _)), (app_assoc (mark (c_neg c) _)), letters_app, <- (app_assoc (letters _ _)). apply leaves_app; [exact (pre_leaves st c bang eq_refl)|]. apply leaves_app; [apply leaves_word, calm, NE|].
    apply leaves_app; [grays PL|]. apply leaves_app; [apply arguments_leaves; assumption|grays PL]. }
  split; apply LL.
Qed.
Definition someone (o : option value) : list value := match o with Some v => [v] | None => [] end.
Lemma range_ok : forall st start e step c, ~ In (str "dark gray") st -> Forall quiet (start :: someone e ++ someone step) ->
  exists os, Forall2 (shown st false) (start :: match e with Some v => [v] | None => [] end ++ match step with Some v => [v] | None => [] end) os /\
    ink st (expection false (XRange start e step) c) = letters st (mark (c_neg c) not_mark ++ mark (c_sq c) (str "*") ++ str "Range") ++ grayed st (str "(") ++ listed st os ++ grayed st (str ")") /\
    behind_line st (expection false (XRange start e step) c) = st.
Proof.
  intros st start e step c PL F. exists (map (pic st false) (start :: someone e ++ someone step)). split; [exact (all_shown _ _ _ F)|].
  assert (LL : leaves st (expection false (XRange start e step) c) (letters st (mark (c_neg c) not_mark ++ mark (c_sq c) (str "*") ++ str "Range") ++ grayed st (str "(") ++ listed st (map (pic st false) (start :: someone e ++ someone step)) ++ grayed st (str ")"))).
  { cbn [expection]. rewrite (app_assoc (mark _ _) (mark _ _) (str "Range")), letters_app, <- (app_assoc (letters _ _)). apply leaves_app; [exact (pre'_leaves st c bang eq_refl)|]. apply leaves_app; [apply leaves_word; reflexivity|]. apply leaves_app; [grays PL|].
    inversion F as [|? ? Q F2]; subst. destruct e as [e|], step as [step|]; cbn [someone app map listed] in *; rewrite ?app_nil_l, <- ?app_assoc; inversion F2; subst.
    - inversion H2; subst. repeat (apply leaves_app; [first [grays PL|apply pic_leaves; assumption]|]). grays PL.
    - repeat (apply leaves_app; [first [grays PL|apply pic_leaves; assumption]|]). grays PL.
    - repeat (apply leaves_app; [first [grays PL|apply pic_leaves; assumption]|]). grays PL.
    - repeat (apply leaves_app; [first [grays PL|apply pic_leaves; assumption]|]). grays PL. }
  split; apply LL.
Qed.
Lemma near_ok : forall st v (percent : bool) d c, ~ In (str "dark gray") st -> quiet v -> quiet d ->
  exists ov od, shown st false v ov /\ shown st false d od /\
    ink st (expection false (XNear v percent d) c) = letters st (mark (c_neg c) unequal_mark ++ mark (c_sq c) (str "*")) ++ ov ++ letters st (str "±") ++ od ++ letters st (mark percent (str "%")) /\
    behind_line st (expection false (XNear v percent d) c) = st.
Proof.
  intros st v percent d c PL QV QD. exists (pic st false v), (pic st false d). split; [apply pic_shown, QV|]. split; [apply pic_shown, QD|].
  assert (LL : leaves st (expection false (XNear v percent d) c) (letters st (mark (c_neg c) unequal_mark ++ mark (c_sq c) (str "*")) ++ pic st false v ++ letters st (str "±") ++ pic st false d ++ letters st (mark percent (str "%")))).
  { cbn [expection]. apply leaves_app; [exact (pre'_leaves st c unequal eq_refl)|]. apply leaves_app; [apply pic_leaves; assumption|]. apply leaves_app; [apply leaves_word; reflexivity|]. apply leaves_app; [apply pic_leaves; assumption|]. destruct percent; [apply leaves_word; reflexivity|apply leaves_nil]. }
  split; apply LL.
Qed.
Lemma bare_ok : forall st c s name, ~ In (str "dark gray") st -> sane s -> ~ In 27 name ->
  ink st (expection false (XJson s) c) = letters st (mark (c_neg c) unequal_mark ++ mark (c_ci c) (str "~") ++ mark (c_sq c) (str "*") ++ s) /\
  ink st (expection false XMemory c) = letters st (mark (c_neg c) not_mark ++ mark (c_ci c) (str "~") ++ mark (c_sq c) (str "*") ++ str "Me()") /\
  ink st (expection false (XType name) c) = letters st (mark (c_neg c) unequal_mark ++ mark (c_sq c) (str "*") ++ name).
Proof.
  intros st c s name PL (A & B) NE. split; [|split].
  - rewrite (app_assoc (mark (c_ci c) _)), (app_assoc (mark (c_neg c) _)), letters_app. cbn [expection print]. unfold print_text, quote. rewrite c_str_id by exact A. apply leaves_app; [exact (pre_leaves st c unequal eq_refl)|]. apply leaves_word, calm, B.
  - rewrite (app_assoc (mark (c_ci c) _)), (app_assoc (mark (c_neg c) _)), letters_app. cbn [expection]. apply leaves_app; [exact (pre_leaves st c bang eq_refl)|apply leaves_word; reflexivity].
  - rewrite (app_assoc (mark (c_neg c) _)), letters_app. cbn [expection]. apply leaves_app; [exact (pre'_leaves st c unequal eq_refl)|apply leaves_word, calm, NE].
Qed.
