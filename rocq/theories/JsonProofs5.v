(** Texts that are no documents are refused. *)
From Coq Require Import List NArith ZArith Bool Arith Lia.
From Verif Require Import Base FilterModel StrModel ExprModel ExprSpec JsonModel JsonSpec JsonProofs JsonProofs2.
Import ListNotations.
Local Open Scope N_scope.

Lemma strip_left_incl s : incl (strip_left s) s.
Proof. induction s as [|c s IH]; cbn [strip_left]; [apply incl_refl|]. destruct (isspace c); [apply incl_tl; exact IH|apply incl_refl]. Qed.
Lemma new_lexis_incl p : incl (new_lexis p) p.
Proof.
  unfold new_lexis, strip_right. intros x I. apply in_rev in I. apply strip_left_incl in I. apply in_rev in I. apply strip_left_incl in I. exact I.
Qed.
Lemma lexer_chars s : forall st p t x, In t (lexer st p s) -> In x t -> In x (p ++ s).
Proof.
  induction s as [|c s IH]; intros st p t x I X; cbn [lexer] in I.
  - rewrite app_nil_r. destruct st; try contradiction; destruct I as [<-|[]]; apply new_lexis_incl; exact X.
  - assert (H1 : In t (lexer Idle [] s) -> In x (p ++ c :: s)) by (intro J; pose proof (IH _ _ _ _ J X) as K; apply in_or_app; right; right; exact K).
    assert (H2 : forall st', In t (lexer st' (p ++ [c]) s) -> In x (p ++ c :: s)) by (intros st' J; pose proof (IH _ _ _ _ J X) as K; rewrite <- app_assoc in K; exact K).
    assert (H3 : t = new_lexis (p ++ [c]) -> In x (p ++ c :: s)) by (intros ->; apply new_lexis_incl in X; apply in_app_or in X; apply in_or_app; destruct X as [X|[X|[]]]; [left; exact X|right; left; exact X]).
    assert (H4 : t = new_lexis [c] -> In x (p ++ c :: s)) by (intros ->; apply new_lexis_incl in X; destruct X as [X|[]]; apply in_or_app; right; left; exact X).
    assert (H5 : t = new_lexis p -> In x (p ++ c :: s)) by (intros ->; apply new_lexis_incl in X; apply in_or_app; left; exact X).
    destruct st as [|b| | | |].
    + destruct (isspace c); [auto|]. destruct (punct c); [destruct I as [<-|I]; auto|]. pose proof (IH _ _ _ _ I X) as K. apply in_or_app. right. exact K.
    + eauto.
    + destruct (c =? 39); [destruct I as [<-|I]; auto|]. destruct (c =? 92); eauto.
    + destruct (c =? 34); [destruct I as [<-|I]; auto|]. destruct (c =? 92); eauto.
    + destruct (c =? 47); [destruct I as [<-|I]; auto|]. eauto.
    + destruct (punct c); [destruct I as [<-|[<-|I]]; auto|]. destruct (c =? 92); eauto.
Qed.

Section Refused.
Variable num : Type.
Variable ev : bytes -> option num.
Lemma syntax_suffix : forall f k ts v q, syntax ev f k ts = Done v q -> incl q ts.
Proof.
  induction f as [|f IH]; intros k ts v q E; [discriminate|]. cbn [syntax] in E.
  destruct k as [|l|l]; destruct ts as [|t r]; try discriminate.
  - injection E as _ <-. apply incl_refl.
  - assert (T : forall v0, Done v0 r = Done v q -> incl q (t :: r)) by (intros v0 H; injection H as _ <-; apply incl_tl, incl_refl).
    repeat match type of E with (if ?b then Done _ _ else _) = _ => destruct b; [eapply T; exact E|] end.
    destruct (bytes_eqb t (str "[")); [apply incl_tl; eapply IH; exact E|]. destruct (bytes_eqb t (str "{")); [apply incl_tl; eapply IH; exact E|].
    destruct (prefixb (str "/") t).
    { destruct (enclosed 47 t); [destruct (middle t); [|discriminate]|]; eapply T; exact E. }
    destruct (bytes_eqb t (str ":")); [discriminate|]. destruct (bytes_eqb t (str ",")); [discriminate|].
    destruct (ev t); [eapply T; exact E|]. destruct (filter_string t); [eapply T; exact E|discriminate].
  - destruct (bytes_eqb t (str "]")); [injection E as _ <-; apply incl_tl, incl_refl|].
    destruct (syntax ev f Value (t :: r)) as [v1 q1| | |] eqn:P; try discriminate. apply IH in P.
    destruct q1 as [|t' q']; [discriminate|]. apply incl_cons_inv in P. destruct P as [_ P].
    destruct (bytes_eqb t' (str ",")); [eapply incl_tran; [eapply IH; exact E|exact P]|].
    destruct (bytes_eqb t' (str "]")); [|discriminate]. injection E as _ <-. exact P.
  - destruct (bytes_eqb t (str "}")); [injection E as _ <-; apply incl_tl, incl_refl|].
    destruct (filter_string t); [|discriminate]. destruct r as [|t1 r1]; [discriminate|]. destruct (bytes_eqb t1 (str ":")); [|discriminate].
    destruct (syntax ev f Value r1) as [v1 q1| | |] eqn:P; try discriminate. apply IH in P.
    destruct q1 as [|t' q']; [discriminate|]. apply incl_cons_inv in P. destruct P as [_ P]. apply (incl_tl t1) in P. apply (incl_tl t) in P.
    destruct (bytes_eqb t' (str ",")); [eapply incl_tran; [eapply IH; exact E|exact P]|].
    destruct (bytes_eqb t' (str "}")); [|discriminate]. injection E as _ <-. exact P.
Qed.
Lemma items_closed : forall f l ts v q, syntax ev f (Items l) ts = Done v q -> In [93] ts.
Proof.
  induction f as [|f IH]; intros l ts v q E; [discriminate|]. cbn [syntax] in E. destruct ts as [|t r]; [discriminate|].
  destruct (bytes_eqb t (str "]")) eqn:B; [apply bytes_eqb_eq in B; subst; left; reflexivity|].
  destruct (syntax ev f Value (t :: r)) as [v1 q1| | |] eqn:P; try discriminate. apply syntax_suffix in P. destruct q1 as [|t' q']; [discriminate|].
  destruct (bytes_eqb t' (str ",")); [apply P; right; eapply IH; exact E|].
  destruct (bytes_eqb t' (str "]")) eqn:B'; [|discriminate]. apply bytes_eqb_eq in B'. subst. apply P. left. reflexivity.
Qed.
Lemma members_closed : forall f l ts v q, syntax ev f (Members l) ts = Done v q -> In [125] ts.
Proof.
  induction f as [|f IH]; intros l ts v q E; [discriminate|]. cbn [syntax] in E. destruct ts as [|t r]; [discriminate|].
  destruct (bytes_eqb t (str "}")) eqn:B; [apply bytes_eqb_eq in B; subst; left; reflexivity|].
  destruct (filter_string t); [|discriminate]. destruct r as [|t1 r1]; [discriminate|]. destruct (bytes_eqb t1 (str ":")); [|discriminate].
  destruct (syntax ev f Value r1) as [v1 q1| | |] eqn:P; try discriminate. apply syntax_suffix in P. destruct q1 as [|t' q']; [discriminate|].
  destruct (bytes_eqb t' (str ",")); [right; right; apply P; right; eapply IH; exact E|].
  destruct (bytes_eqb t' (str "}")) eqn:B'; [|discriminate]. apply bytes_eqb_eq in B'. subst. right. right. apply P. left. reflexivity.
Qed.
Lemma refused_unclosed s : unclosed s -> tree_of ev s = Fails \/ tree_of ev s = Throws.
Proof.
  intro U. assert (N : forall v, tree_of ev s <> Done v []).
  { destruct U as [w s W Z C|w s W Z C]; intros v E; unfold tree_of, lexical in E.
    - rewrite c_str_noz in E by (apply noz_app; [apply noz_ws; exact W|apply noz_cons; [discriminate|apply Forall_forall; intros x I ->; exact (Z I)]]).
      rewrite lexer_ws in E by exact W. rewrite lexer_punct in E by (unfold is_punct; lia). change (syntax ev (depth ([91] :: lexer Idle [] s)) Value ([91] :: lexer Idle [] s)) with (syntax ev (S (2 * length ([91] :: lexer Idle [] s))) (Items []) (lexer Idle [] s)) in E.
      destruct (syntax ev _ (Items []) (lexer Idle [] s)) as [v1 q| | |] eqn:P; try discriminate. apply items_closed in P. apply C.
      exact (lexer_chars s Idle [] [93] 93 P (or_introl eq_refl)).
    - rewrite c_str_noz in E by (apply noz_app; [apply noz_ws; exact W|apply noz_cons; [discriminate|apply Forall_forall; intros x I ->; exact (Z I)]]).
      rewrite lexer_ws in E by exact W. rewrite lexer_punct in E by (unfold is_punct; lia). change (syntax ev (depth ([123] :: lexer Idle [] s)) Value ([123] :: lexer Idle [] s)) with (syntax ev (S (2 * length ([123] :: lexer Idle [] s))) (Members []) (lexer Idle [] s)) in E.
      destruct (syntax ev _ (Members []) (lexer Idle [] s)) as [v1 q| | |] eqn:P; try discriminate. apply members_closed in P. apply C.
      exact (lexer_chars s Idle [] [125] 125 P (or_introl eq_refl)). }
  pose proof (tree_ends num ev s) as EN. unfold tree_of in *. destruct (syntax ev _ Value _) as [v [|t q]| | |]; auto; try congruence.
Qed.
End Refused.

Lemma opens_punct A v t : jtext A v t -> (exists l, v = Arr l) \/ (exists l, v = Obj l) -> exists c r, t = c :: r /\ is_punct c.
Proof.
  intros T [(l & ->)|(l & ->)]; inversion T; subst; eexists _, _; (split; [reflexivity|]); unfold is_punct; lia.
Qed.
Lemma refused_doubled A s : doubled A s -> tree_of (evaluate A) s = Fails.
Proof.
  intros (v & t & w1 & w & v' & t' & w2 & W1 & W & W2 & T & T' & C & ->).
  destruct (opens_punct A v' t' T' C) as (c & r & E & P).
  destruct (proj1 (json_good A) v t T) as (Z & u & toks & NU & L & PS). destruct (proj1 (json_good A) v' t' T') as (Z' & u' & toks' & NU' & L' & _).
  unfold tree_of, lexical. rewrite c_str_noz by (repeat apply noz_app; auto using noz_ws).
  assert (LX : lexer Idle [] (w1 ++ t ++ w ++ t' ++ w2) = (u :: toks) ++ u' :: toks').
  { rewrite lexer_ws by auto. rewrite L by (rewrite E; cbn [app]; exists w; split; [exact W|]; right; eauto).
    rewrite lexer_ws by auto. rewrite L' by (exists w2; split; [exact W2|left; reflexivity]).
    pose proof (lexer_ws w2 [] W2) as LW. rewrite app_nil_r in LW. rewrite LW. cbn [lexer]. rewrite app_nil_r. reflexivity. }
  rewrite LX. rewrite (parses_depth _ _ _ _ (PS (u' :: toks'))). reflexivity.
Qed.
Lemma match_refused A near pat cl v d s : document A v d -> (doubled A s -> json_match (evaluate A) near pat cl d s = Some (-1)%Z /\ json_match (evaluate A) near pat cl s d = Some (-1)%Z) /\
  (unclosed s -> (json_match (evaluate A) near pat cl d s = Some (-1)%Z /\ json_match (evaluate A) near pat cl s d = Some (-1)%Z) \/ (json_match (evaluate A) near pat cl d s = None /\ json_match (evaluate A) near pat cl s d = None)).
Proof.
  intro D. unfold json_match. rewrite (tree_of_document A v d D). split.
  - intro H. rewrite (refused_doubled A s H). auto.
  - intro H. destruct (refused_unclosed (R A) (evaluate A) s H) as [-> | ->]; auto.
Qed.
