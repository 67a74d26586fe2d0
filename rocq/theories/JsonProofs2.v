(** Texts parse to their values; where exceptions come from. *)
From Coq Require Import List NArith ZArith Bool Arith Lia.
From Verif Require Import Base FilterModel StrModel StrSpec StrProofs ExprModel ExprSpec ExprProofs ExprProofs2 JsonModel JsonSpec JsonProofs.
Import ListNotations.
Local Open Scope N_scope.

Scheme jtext_mut := Minimality for jtext Sort Prop
  with jitems_mut := Minimality for jitems Sort Prop
  with jmembers_mut := Minimality for jmembers Sort Prop.
Combined Scheme json_mut from jtext_mut, jitems_mut, jmembers_mut.

Definition noz (s : bytes) : Prop := Forall (fun c => c <> 0) s.
Lemma c_str_noz s : noz s -> c_str s = s.
Proof. induction 1 as [|c s H F IH]; [reflexivity|]. cbn [c_str]. rewrite (proj2 (N.eqb_neq c 0) H), IH. reflexivity. Qed.
Lemma noz_app a b : noz a -> noz b -> noz (a ++ b).
Proof. intros. apply Forall_app; auto. Qed.
Lemma noz_cons c s : c <> 0 -> noz s -> noz (c :: s).
Proof. constructor; auto. Qed.
Lemma noz_ws w : ws w -> noz w.
Proof. apply Forall_impl. intros c H. lia. Qed.
Lemma noz_quoted k t : quoted_text k t -> noz t.
Proof.
  intros (q & l & Q & -> & D & F). apply noz_cons; [lia|]. apply noz_app; [|repeat constructor; lia].
  induction D as [|x y l k X D IH]; [constructor|]. pose proof (Forall_inv F) as Fx. pose proof (Forall_inv_tail F) as Fl. destruct x as [x|e].
  - change (StrSpec.written (Plain x :: l)) with (x :: StrSpec.written l). apply noz_cons; [tauto|auto].
  - change (StrSpec.written (Esc e :: l)) with (92 :: e :: StrSpec.written l). apply noz_cons; [discriminate|]. apply noz_cons; [|auto]. eapply meaning_char; exact X.
Qed.
Lemma noz_bare t : bare t -> noz t.
Proof. intros (_ & _ & F). eapply Forall_impl; [|exact F]. cbn. tauto. Qed.
Lemma noz_44 s : noz s -> noz (44 :: s).
Proof. apply noz_cons. discriminate. Qed.
Lemma noz_58 s : noz s -> noz (58 :: s).
Proof. apply noz_cons. discriminate. Qed.
#[local] Hint Resolve noz_44 noz_58 noz_app noz_cons noz_ws noz_quoted noz_bare : noz.

Section Text.
Variable A : alg.
Notation ev := (evaluate A).
Lemma parses_one ts r : syntax ev 1 Value ts = r -> r <> Calls -> parses (R A) ev Value ts r.
Proof. intros E N. exists 1%nat. intros g L. eapply syntax_mono; eauto. Qed.
Lemma stops_ws w c r : ws w -> is_punct c -> stops (w ++ c :: r).
Proof. intros W P. exists w. split; [exact W|]. right. exists c, r. auto. Qed.
Lemma evaluate_quote c s : c = 34 \/ c = 39 -> ev (c :: s) = None.
Proof. intros [-> | ->]; reflexivity. Qed.
Lemma quoted_head k t : quoted_text k t -> exists c r, t = c :: r /\ (c = 34 \/ c = 39).
Proof. intros (q & l & Q & -> & _). exists q, (StrSpec.written l ++ [q]). auto. Qed.
Lemma bytes_eqb_hd (c d : byte) (r s : bytes) : c <> d -> bytes_eqb (c :: r) (d :: s) = false.
Proof. intro N. cbn [bytes_eqb]. apply N.eqb_neq in N. rewrite N. reflexivity. Qed.
Lemma parses_string k t q : quoted_text k t -> parses (R A) ev Value (t :: q) (Done (Str k) q).
Proof.
  intro Q. apply parses_one; [|discriminate]. pose proof (filter_quoted k t Q) as F. destruct (quoted_head k t Q) as (c & r & E & C).
  rewrite E in F |- *. cbn [syntax]. rewrite F, (evaluate_quote c r C).
  destruct C as [-> | ->]; reflexivity.
Qed.
Lemma parses_number x t q : number_text A x t -> parses (R A) ev Value (t :: q) (Done (Num x) q).
Proof.
  intro Q. apply parses_one; [|discriminate]. pose proof (number_bare A x t Q) as (_ & (H1 & H2 & H3) & B).
  assert (E : ev t = Some x). { destruct Q as (ts & u & W & D & V & _). apply (evaluate_written A ts t x W). exists u. auto. }
  assert (K : forall w, ev w = None -> bytes_eqb t w = false) by (intros w Hw; apply bytes_eqb_neq; congruence).
  assert (P : forall c, is_punct c -> bytes_eqb t [c] = false).
  { intros c Pc. apply bytes_eqb_neq. intros ->. destruct (Forall_inv B) as [Np _]. contradiction. }
  cbn [syntax]. rewrite (K (str "null")), (K (str "false")), (K (str "true")) by reflexivity.
  change (str "[") with [91]. change (str "{") with [123]. change (str ":") with [58]. change (str ",") with [44].
  rewrite (P 91), (P 123), (P 58), (P 44) by (unfold is_punct; lia).
  assert (S : prefixb (str "/") t = false).
  { destruct t as [|c t]; [reflexivity|]. cbn [hd] in *. change (prefixb (str "/") (c :: t)) with ((47 =? c) && true). rewrite (proj2 (N.eqb_neq 47 c)) by congruence. reflexivity. }
  rewrite S, E. reflexivity.
Qed.
Lemma bare_word t : In t [str "null"; str "true"; str "false"] -> bare t.
Proof.
  cbn [In]. intros [<-|[<-|[<-|[]]]]; (split; [cbn; unfold sp; split; lia|split; [cbn; repeat split; discriminate|]]);
    cbn; repeat (apply Forall_cons; [unfold is_punct; lia|]); apply Forall_nil.
Qed.

Definition good (v : value (R A)) (t : bytes) : Prop :=
  noz t /\ exists u toks, u <> [93] /\ (forall rest, stops rest -> lexer Idle [] (t ++ rest) = (u :: toks) ++ lexer Idle [] rest) /\
  forall q, parses (R A) ev Value ((u :: toks) ++ q) (Done v q).
Definition good_items (l : list (value (R A))) (s : bytes) : Prop :=
  noz s /\ exists toks, (forall rest, lexer Idle [] (s ++ 93 :: rest) = toks ++ [93] :: lexer Idle [] rest) /\
  forall acc q, parses (R A) ev (Items acc) (toks ++ [93] :: q) (Done (Arr (acc ++ l)) q).
Definition good_members (l : list (bytes * value (R A))) (s : bytes) : Prop :=
  noz s /\ exists toks, (forall rest, lexer Idle [] (s ++ 125 :: rest) = toks ++ [125] :: lexer Idle [] rest) /\
  forall acc q, parses (R A) ev (Members acc) (toks ++ [125] :: q) (Done (Obj (acc ++ l)) q).
Lemma good_word t v : In t [str "null"; str "true"; str "false"] -> (forall q, syntax ev 1 Value (t :: q) = Done v q) -> good v t.
Proof.
  intros I E. pose proof (bare_word t I) as B. split; [auto with noz|]. exists t, []. split; [intros ->; destruct I as [H|[H|[H|[]]]]; discriminate|].
  split; [intros rest S; apply lexer_bare; auto|]. intro q. apply parses_one; [apply E|discriminate].
Qed.
Lemma eqb_93 u : u <> [93] -> bytes_eqb u (str "]") = false.
Proof. intro N. apply bytes_eqb_neq. exact N. Qed.
Lemma json_good : (forall v t, jtext A v t -> good v t) /\ (forall l s, jitems A l s -> good_items l s) /\ (forall l s, jmembers A l s -> good_members l s).
Proof.
  apply json_mut.
  - apply good_word; [cbn; auto|reflexivity].
  - apply good_word; [cbn; auto|reflexivity].
  - apply good_word; [cbn; auto|reflexivity].
  - intros x s N. pose proof (number_bare A x s N) as B. split; [auto with noz|]. exists s, []. split.
    { intros ->. destruct B as (_ & _ & F). destruct (Forall_inv F) as [P _]. apply P. unfold is_punct. lia. }
    split; [intros rest S; apply lexer_bare; auto|]. intro q. apply parses_number; auto.
  - intros c s Q. split; [eauto with noz|]. exists s, []. split.
    { destruct (quoted_head c s Q) as (h & r & -> & H). intro E. injection E as E _. lia. }
    split; [intros rest _; apply (lexer_string c); auto|]. intro q. apply parses_string; auto.
  - intros p F. split.
    { apply noz_cons; [discriminate|]. apply noz_app; [|repeat constructor; discriminate]. eapply Forall_impl; [|exact F]. cbn. tauto. }
    exists (47 :: p ++ [47]), []. split; [discriminate|]. split; [intros rest _; apply lexer_pattern; auto|].
    intro q. apply parses_one; [|discriminate]. cbn [app syntax].
    rewrite (enclosed_quote 47 p 47), (middle_quote 47 p). reflexivity.
  - intros w W. split; [apply noz_cons; [discriminate|]; apply noz_app; [auto with noz|repeat constructor; discriminate]|].
    exists [91], [[93]]. split; [discriminate|]. split.
    + intros rest _. cbn [app]. rewrite lexer_punct by (unfold is_punct; lia). rewrite <- app_assoc. rewrite lexer_ws by auto. cbn [app]. rewrite lexer_punct by (unfold is_punct; lia). reflexivity.
    + intro q. exists 2%nat. intros g L. apply (syntax_mono _ _ 2); [exact L|reflexivity|discriminate].
  - intros l s _ (Z & toks & L & P). split; [apply noz_cons; [discriminate|]; apply noz_app; [exact Z|repeat constructor; discriminate]|].
    exists [91], (toks ++ [[93]]). split; [discriminate|]. split.
    + intros rest _. cbn [app]. rewrite lexer_punct by (unfold is_punct; lia). rewrite <- app_assoc. cbn [app]. rewrite L. rewrite <- app_assoc. reflexivity.
    + intro q. destruct (P [] q) as (f & E). exists (S f). intros g Lg. destruct g as [|g]; [lia|]. cbn [app]. rewrite <- app_assoc. cbn [app syntax].
      apply E. lia.
  - intros w W. split; [apply noz_cons; [discriminate|]; apply noz_app; [auto with noz|repeat constructor; discriminate]|].
    exists [123], [[125]]. split; [discriminate|]. split.
    + intros rest _. cbn [app]. rewrite lexer_punct by (unfold is_punct; lia). rewrite <- app_assoc. rewrite lexer_ws by auto. cbn [app]. rewrite lexer_punct by (unfold is_punct; lia). reflexivity.
    + intro q. exists 2%nat. intros g L. apply (syntax_mono _ _ 2); [exact L|reflexivity|discriminate].
  - intros l s _ (Z & toks & L & P). split; [apply noz_cons; [discriminate|]; apply noz_app; [exact Z|repeat constructor; discriminate]|].
    exists [123], (toks ++ [[125]]). split; [discriminate|]. split.
    + intros rest _. cbn [app]. rewrite lexer_punct by (unfold is_punct; lia). rewrite <- app_assoc. cbn [app]. rewrite L. rewrite <- app_assoc. reflexivity.
    + intro q. destruct (P [] q) as (f & E). exists (S f). intros g Lg. destruct g as [|g]; [lia|]. cbn [app]. rewrite <- app_assoc. cbn [app syntax].
      apply E. lia.
  - intros v w1 t w2 W1 W2 _ (Z & u & toks & NU & L & P). split; [auto with noz|]. exists (u :: toks). split.
    + intro rest. rewrite <- app_assoc. rewrite lexer_ws by auto. rewrite <- app_assoc. rewrite L by (apply stops_ws; auto; unfold is_punct; lia).
      f_equal. rewrite lexer_ws by auto. apply lexer_punct. unfold is_punct; lia.
    + intros acc q. destruct (P ([93] :: q)) as (f & E). exists (S f). intros g Lg. destruct g as [|g]; [lia|].
      specialize (E g ltac:(lia)). cbn [app] in E |- *. cbn [syntax]. rewrite (eqb_93 u NU), E. reflexivity.
  - intros v w1 t w2 l s W1 W2 _ (Z & u & toks & NU & L & P) _ (Zs & toks2 & L2 & P2). split.
    { auto 12 with noz. }
    exists ((u :: toks) ++ [44] :: toks2). split.
    + intro rest. rewrite <- !app_assoc. cbn [app]. rewrite lexer_ws by auto. rewrite L by (apply stops_ws; auto; unfold is_punct; lia).
      cbn [app]. do 2 f_equal. rewrite lexer_ws by auto. cbn [app]. rewrite lexer_punct by (unfold is_punct; lia). f_equal. apply L2.
    + intros acc q. destruct (P ([44] :: toks2 ++ [93] :: q)) as (f & E). destruct (P2 (acc ++ [v]) q) as (f2 & E2).
      exists (S (f + f2)). intros g Lg. destruct g as [|g]; [lia|].
      specialize (E g ltac:(lia)). specialize (E2 g ltac:(lia)).
      rewrite <- app_assoc. cbn [app] in E |- *. cbn [syntax]. rewrite (eqb_93 u NU), E. change (bytes_eqb [44] (str ",")) with true. cbn iota.
      rewrite E2. rewrite <- app_assoc. reflexivity.
  - intros k kt v w1 w2 w3 t w4 W1 W2 W3 W4 K _ (Z & u & toks & NU & L & P). split.
    { pose proof (noz_quoted k kt K). auto 14 with noz. }
    exists (kt :: [58] :: u :: toks). split.
    + intro rest. rewrite <- app_assoc. rewrite lexer_ws by auto. rewrite <- app_assoc. rewrite (lexer_string k) by auto.
      rewrite <- app_assoc. rewrite lexer_ws by auto. cbn [app]. rewrite lexer_punct by (unfold is_punct; lia). f_equal. f_equal.
      rewrite <- app_assoc. rewrite lexer_ws by auto. rewrite <- app_assoc. rewrite L by (apply stops_ws; auto; unfold is_punct; lia).
      cbn [app]. do 2 f_equal. rewrite lexer_ws by auto. apply lexer_punct. unfold is_punct; lia.
    + intros acc q. destruct (P ([125] :: q)) as (f & E). exists (S f). intros g Lg. destruct g as [|g]; [lia|].
      specialize (E g ltac:(lia)). cbn [app] in E |- *. cbn [syntax].
      destruct (quoted_head k kt K) as (h & r & -> & H). replace (bytes_eqb (h :: r) (str "}")) with false by (symmetry; apply (bytes_eqb_hd h 125 r []); lia).
      rewrite (filter_quoted k _ K). change (bytes_eqb [58] (str ":")) with true. cbn iota. rewrite E. reflexivity.
  - intros k kt v w1 w2 w3 t w4 l s W1 W2 W3 W4 K _ (Z & u & toks & NU & L & P) _ (Zs & toks2 & L2 & P2). split.
    { pose proof (noz_quoted k kt K). auto 14 with noz. }
    exists (kt :: [58] :: (u :: toks) ++ [44] :: toks2). split.
    + intro rest. rewrite <- app_assoc. rewrite lexer_ws by auto. rewrite <- app_assoc. rewrite (lexer_string k) by auto.
      rewrite <- app_assoc. rewrite lexer_ws by auto. cbn [app]. rewrite lexer_punct by (unfold is_punct; lia). f_equal. f_equal.
      rewrite <- !app_assoc. cbn [app]. rewrite lexer_ws by auto. rewrite L by (apply stops_ws; auto; unfold is_punct; lia).
      cbn [app]. do 2 f_equal. rewrite lexer_ws by auto. rewrite lexer_punct by (unfold is_punct; lia). f_equal. apply L2.
    + intros acc q. destruct (P ([44] :: toks2 ++ [125] :: q)) as (f & E). destruct (P2 (acc ++ [(k, v)]) q) as (f2 & E2).
      exists (S (f + f2)). intros g Lg. destruct g as [|g]; [lia|].
      specialize (E g ltac:(lia)). specialize (E2 g ltac:(lia)). cbn [app] in E |- *. rewrite <- app_assoc. cbn [app syntax].
      destruct (quoted_head k kt K) as (h & r & -> & H). replace (bytes_eqb (h :: r) (str "}")) with false by (symmetry; apply (bytes_eqb_hd h 125 r []); lia).
      rewrite (filter_quoted k _ K). change (bytes_eqb [58] (str ":")) with true. cbn iota. rewrite E. change (bytes_eqb [44] (str ",")) with true. cbn iota.
      rewrite E2. rewrite <- app_assoc. reflexivity.
Qed.
Lemma tree_of_document v s : document A v s -> tree_of ev s = Done v [].
Proof.
  intros (w1 & t & w2 & W1 & W2 & T & ->). destruct (proj1 json_good v t T) as (Z & u & toks & NU & L & P).
  unfold tree_of, lexical. rewrite c_str_noz by (repeat (apply noz_app; auto with noz)).
  assert (LX : lexer Idle [] (w1 ++ t ++ w2) = u :: toks).
  { rewrite lexer_ws by auto. rewrite L by (exists w2; split; [exact W2|left; reflexivity]).
    pose proof (lexer_ws w2 [] W2) as LW. rewrite app_nil_r in LW. rewrite LW. cbn [lexer]. apply app_nil_r. }
  rewrite LX. specialize (P []). rewrite app_nil_r in P. rewrite (parses_depth _ _ _ _ P). reflexivity.
Qed.
Lemma json_number_text x s : json_number A x s -> number_text A x s.
Proof.
  intros (d & D & H). pose proof (decimal_chars d D) as F.
  assert (NC : ~ In 44 d). { intro I. assert (Q := proj1 (Forall_forall _ _) F 44 I). cbn in Q. unfold digit in Q. lia. }
  assert (HF : forall c r, d = c :: r -> c <> 32 /\ c <> 9). { intros c r E. rewrite E in F. apply Forall_inv in F. unfold digit in F. lia. }
  assert (HL : forall c r, d = r ++ [c] -> c <> 32 /\ c <> 9). { intros c r E. rewrite E in F. apply Forall_app in F. destruct F as [_ F]. apply Forall_inv in F. unfold digit in F. lia. }
  assert (WD : ExprSpec.written [TNum d] d).
  { replace d with ([] ++ d ++ []) at 2 by (rewrite app_nil_r; reflexivity). apply W_token; [constructor|constructor; auto|exact I|apply W_end; constructor]. }
  destruct H as [[-> ->] | [-> ->]].
  - exists [TNum d], (Lit d). split; [exact WD|]. split; [apply D_expr, atom_expr; constructor|]. split; [reflexivity|]. auto.
  - exists [TSub; TNum d], (App1 (str "negate") (Lit d)). split; [|split; [|split; [reflexivity|]]].
    + change (45 :: d) with ([] ++ str "-" ++ d). apply W_token; [constructor|constructor|exact I|exact WD].
    + apply D_expr, D_term, D_factor, D_power. change [TSub; TNum d] with ([TSub] ++ [TNum d]).
      change (App1 (str "negate") (Lit d)) with (if Nat.odd (minuses [TSub]) then App1 (str "negate") (Lit d) else Lit d). apply D_signs; [repeat constructor; right; reflexivity|].
      apply D_fac, D_atom. constructor.
    + split; [intros [E|I]; [discriminate|auto]|]. split.
      * intros c r E. injection E as <- _. split; discriminate.
      * intros c r E. destruct (decimal_start d D) as (a & b & Ed & _). destruct r as [|z r]; [rewrite Ed in E; discriminate|]. injection E as _ E. eapply HL; exact E.
Qed.
End Text.

(** ** lone quote tokens stand at the end of the text *)
Definition qmark (q : byte) : Prop := q = 34 \/ q = 39 \/ q = 47.
Fixpoint inv (st : lstate) (p : bytes) : Prop :=
  match st with
  | Idle => p = []
  | Escape b => inv b p /\ b <> Idle /\ In 92 p
  | Double => exists r, p = 34 :: r
  | Single => exists r, p = 39 :: r
  | Pattern => exists r, p = 47 :: r
  | Normal => exists c r, p = c :: r /\ ~ qmark c /\ ~ sp c
  end.
Lemma inv_more st p x : st <> Idle -> inv st p -> inv st (p ++ [x]).
Proof.
  induction st; cbn [inv]; intro N.
  - congruence.
  - intros (H & B & I). repeat split; auto. apply in_or_app; auto.
  - intros (r & ->). exists (r ++ [x]). reflexivity.
  - intros (r & ->). exists (r ++ [x]). reflexivity.
  - intros (r & ->). exists (r ++ [x]). reflexivity.
  - intros (c & r & -> & H). exists c, (r ++ [x]). auto.
Qed.
Lemma new_lexis_one p q : new_lexis p = [q] -> exists w1 w2, p = w1 ++ q :: w2 /\ ws w1 /\ ws w2 /\ ~ sp q.
Proof.
  intro E. unfold new_lexis in E. destruct (strip_left_form p) as (w1 & W1 & E1 & _). unfold strip_right in E.
  destruct (strip_left_form (rev (strip_left p))) as (w2 & W2 & E2 & H2).
  assert (E3 : strip_left (rev (strip_left p)) = [q]).
  { rewrite <- (rev_involutive (strip_left (rev (strip_left p)))), E. reflexivity. }
  rewrite E3 in E2, H2. exists w1, (rev w2). split; [|split; [auto|split; [apply ws_rev; auto|exact H2]]].
  rewrite E1. f_equal. rewrite <- (rev_involutive (strip_left p)), E2, rev_app_distr. reflexivity.
Qed.
Lemma head_char w1 c r (q : byte) w2 : c :: r = w1 ++ q :: w2 -> ws w1 -> ~ sp c -> w1 = [] /\ c = q /\ r = w2.
Proof. destruct w1 as [|b w1]; cbn [app]; intros E W N; injection E as -> ->; auto. apply Forall_inv in W. contradiction. Qed.
Lemma inv_head st p q : inv st p -> st <> Idle -> new_lexis p = [q] -> qmark q -> exists w, ws w /\ p = q :: w /\ (forall b, st <> Escape b) /\ st <> Normal.
Proof.
  intros I N E Q. destruct (new_lexis_one p q E) as (w1 & w2 & -> & W1 & W2 & Sq).
  assert (H : exists c r, w1 ++ q :: w2 = c :: r /\ ~ sp c).
  { clear E. induction st; cbn [inv] in I.
    - congruence.
    - apply IHst; tauto.
    - destruct I as (r & ->). eexists _, _. split; [reflexivity|]. unfold sp; lia.
    - destruct I as (r & ->). eexists _, _. split; [reflexivity|]. unfold sp; lia.
    - destruct I as (r & ->). eexists _, _. split; [reflexivity|]. unfold sp; lia.
    - destruct I as (c & r & -> & _ & H). eauto. }
  destruct H as (c & r & Ec & Hc). destruct (head_char w1 c r q w2 (eq_sym Ec) W1 Hc) as (-> & -> & ->).
  exists w2. split; [exact W2|]. split; [reflexivity|]. cbn [app] in I. split.
  - intros b ->. cbn [inv] in I. destruct I as (_ & _ & [I|I]); [unfold qmark in Q; lia|]. assert (K := proj1 (Forall_forall _ _) W2 92 I). cbn in K. lia.
  - intros ->. cbn [inv] in I. destruct I as (d & r & Ed & Nd & _). injection Ed as -> _. contradiction.
Qed.
Lemma lexer_lone s : forall st p q, inv st p -> qmark q -> In [q] (lexer st p s) -> exists a w, p ++ s = a ++ q :: w /\ ws w.
Proof.
  induction s as [|c s IH]; intros st p q I Q M.
  - cbn [lexer] in M. assert (H : st <> Idle /\ new_lexis p = [q]).
    { destruct st; [contradiction|..]; destruct M as [M|[]]; split; auto; discriminate. }
    destruct H as [H1 H2]. destruct (inv_head st p q I H1 H2 Q) as (w & W & -> & _). exists [], w. rewrite app_nil_r. auto.
  - assert (NX : forall st' p', inv st' p' -> In [q] (lexer st' p' s) -> p' ++ s = [] ++ s \/ p' ++ s = p ++ c :: s \/ (p' = [c] /\ p = []) -> exists a w, p ++ c :: s = a ++ q :: w /\ ws w).
    { intros st' p' I' M' H. destruct (IH st' p' q I' Q M') as (a & w & E & W). destruct H as [H|[H|[-> ->]]].
      - cbn [app] in H. exists (p ++ c :: a), w. split; [|exact W]. rewrite <- app_assoc. cbn [app]. f_equal. f_equal. congruence.
      - exists a, w. split; [congruence|exact W].
      - cbn [app] in *. exists a, w. auto. }
    assert (MORE : forall st' p', inv st' p' -> st' <> Idle -> In [q] (lexer st' p' s) -> p' = p ++ [c] -> exists a w, p ++ c :: s = a ++ q :: w /\ ws w).
    { intros st' p' I' _ M' ->. apply (NX st' (p ++ [c])); auto. right; left. rewrite <- app_assoc. reflexivity. }
    assert (IDLE : In [q] (lexer Idle [] s) -> exists a w, p ++ c :: s = a ++ q :: w /\ ws w) by (intro M'; apply (NX Idle []); cbn; auto).
    assert (CLOSED : forall k r, p = k :: r -> qmark k -> ~ sp c -> c = k -> [q] = new_lexis (p ++ [c]) -> False).
    { intros k r -> K _ -> E. cbn [app] in E. rewrite new_lexis_firm in E by (apply firm_quote; exact K). injection E as _ E. destruct r; discriminate. }
    cbn [lexer] in M. destruct st as [|back| | | |].
    + cbn [inv] in I. subst p. cbn [app]. destruct (isspace c) eqn:S; [apply IDLE; exact M|]. destruct (punct c) eqn:P.
      * destruct M as [M|M]; [|apply IDLE; exact M]. exfalso. apply punct_b in P. rewrite new_lexis_firm in M by (split; cbn [last]; apply punct_sp; auto).
        injection M as ->. unfold is_punct, qmark in *. lia.
      * apply (NX (start c) [c]); [|exact M|auto]. apply sp_nb in S. unfold start.
        destruct (c =? 34) eqn:E1; [apply N.eqb_eq in E1; subst; exists []; reflexivity|]. destruct (c =? 39) eqn:E2; [apply N.eqb_eq in E2; subst; exists []; reflexivity|].
        destruct (c =? 47) eqn:E3; [apply N.eqb_eq in E3; subst; exists []; reflexivity|].
        apply N.eqb_neq in E1. apply N.eqb_neq in E2. apply N.eqb_neq in E3.
        assert (NQ : ~ qmark c) by (unfold qmark; lia).
        destruct (c =? 92) eqn:E4; [apply N.eqb_eq in E4; subst; split; [exists 92, []; auto|split; [discriminate|left; auto]]|]. exists c, []. auto.
    + cbn [inv] in I. destruct I as (I & B & _). apply (MORE back (p ++ [c])); auto. apply inv_more; auto.
    + destruct I as (r & Er). destruct (c =? 39) eqn:E1.
      * apply N.eqb_eq in E1. destruct M as [M|M]; [|apply IDLE; exact M]. exfalso. apply (CLOSED 39 r Er); auto; [unfold qmark; auto|unfold sp; lia].
      * destruct (c =? 92) eqn:E2; [apply N.eqb_eq in E2; apply (MORE (Escape Single) (p ++ [c])); auto; [|discriminate]|apply (MORE Single (p ++ [c])); auto; [apply inv_more; [discriminate|exists r; exact Er]|discriminate]].
        split; [apply inv_more; [discriminate|exists r; exact Er]|]. split; [discriminate|]. apply in_or_app. right. left. exact E2.
    + destruct I as (r & Er). destruct (c =? 34) eqn:E1.
      * apply N.eqb_eq in E1. destruct M as [M|M]; [|apply IDLE; exact M]. exfalso. apply (CLOSED 34 r Er); auto; [unfold qmark; auto|unfold sp; lia].
      * destruct (c =? 92) eqn:E2; [apply N.eqb_eq in E2; apply (MORE (Escape Double) (p ++ [c])); auto; [|discriminate]|apply (MORE Double (p ++ [c])); auto; [apply inv_more; [discriminate|exists r; exact Er]|discriminate]].
        split; [apply inv_more; [discriminate|exists r; exact Er]|]. split; [discriminate|]. apply in_or_app. right. left. exact E2.
    + destruct I as (r & Er). destruct (c =? 47) eqn:E1.
      * apply N.eqb_eq in E1. destruct M as [M|M]; [|apply IDLE; exact M]. exfalso. apply (CLOSED 47 r Er); auto; [unfold qmark; auto|unfold sp; lia].
      * apply (MORE Pattern (p ++ [c])); auto; [apply inv_more; [discriminate|exists r; exact Er]|discriminate].
    + destruct (punct c) eqn:P.
      * destruct M as [M|[M|M]]; [| |apply IDLE; exact M].
        -- exfalso. destruct (inv_head Normal p q I) as (w & _ & _ & _ & NN); auto; discriminate.
        -- exfalso. apply punct_b in P. rewrite new_lexis_firm in M by (split; cbn [last]; apply punct_sp; auto). injection M as ->. unfold is_punct, qmark in *. lia.
      * destruct (c =? 92) eqn:E2; [apply N.eqb_eq in E2; apply (MORE (Escape Normal) (p ++ [c])); auto; [|discriminate]|apply (MORE Normal (p ++ [c])); auto; [apply inv_more; [discriminate|exact I]|discriminate]].
        split; [apply (inv_more Normal); [discriminate|exact I]|]. split; [discriminate|]. apply in_or_app. right. left. exact E2.
Qed.
Lemma tree_throws num (ev : bytes -> option num) s : tree_of ev s = Throws -> exists a q w, c_str s = a ++ q :: w /\ (q = 34 \/ q = 39 \/ q = 47) /\ ws w.
Proof.
  unfold tree_of. intro E. destruct (syntax ev (depth (lexical s)) Value (lexical s)) as [v q| | |] eqn:P; try discriminate; [destruct q; discriminate|].
  destruct (syntax_throws num ev _ _ _ P) as (t & M & L). unfold lexical in M.
  assert (H : exists q, t = [q] /\ qmark q) by (destruct L as [->|[->| ->]]; eexists; split; try reflexivity; unfold qmark; auto).
  destruct H as (q & -> & Q). destruct (lexer_lone (c_str s) Idle [] q eq_refl Q M) as (a & w & Ea & W). exists a, q, w. auto.
Qed.
Lemma tree_ends num (ev : bytes -> option num) s : tree_of ev s <> Calls.
Proof. unfold tree_of. pose proof (depth_ends num ev (lexical s)). destruct (syntax ev (depth (lexical s)) Value (lexical s)) as [v q| | |]; try discriminate; [destruct q; discriminate|auto]. Qed.
