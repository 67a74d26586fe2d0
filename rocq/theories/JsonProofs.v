(** Lexing and parsing of JSON texts; termination; exceptions. *)
From Coq Require Import List NArith ZArith Bool Arith Lia.
From Verif Require Import Base FilterModel StrModel StrSpec StrProofs ExprModel ExprSpec ExprProofs ExprProofs2 JsonModel JsonSpec.
Import ListNotations.
Local Open Scope N_scope.

(** ** white space *)
Definition sp (c : byte) : Prop := c = 32 \/ (9 <= c /\ c <= 13).
Lemma sp_b c : sp c <-> isspace c = true.
Proof. unfold sp, isspace. lia. Qed.
Lemma sp_nb c : ~ sp c <-> isspace c = false.
Proof. rewrite sp_b. destruct (isspace c); split; congruence. Qed.
Lemma strip_left_ws w s : ws w -> strip_left (w ++ s) = strip_left s.
Proof. induction 1 as [|c w H F IH]; [reflexivity|]. cbn [app strip_left]. apply sp_b in H. rewrite H. exact IH. Qed.
Lemma strip_left_id c s : ~ sp c -> strip_left (c :: s) = c :: s.
Proof. intro H. apply sp_nb in H. cbn [strip_left]. rewrite H. reflexivity. Qed.
Lemma strip_left_form s : exists w, ws w /\ s = w ++ strip_left s /\ match strip_left s with [] => True | c :: _ => ~ sp c end.
Proof.
  induction s as [|c s (w & W & E & H)]; [exists []; repeat split; constructor|]. cbn [strip_left]. destruct (isspace c) eqn:S.
  - exists (c :: w). split; [constructor; auto; apply sp_b; auto|]. split; [cbn [app]; congruence|exact H].
  - exists []. split; [constructor|]. split; [reflexivity|]. apply sp_nb; auto.
Qed.
Lemma ws_rev w : ws w -> ws (rev w).
Proof. apply Forall_rev. Qed.
Lemma strip_right_ws s w : ws w -> strip_right (s ++ w) = strip_right s.
Proof. intro W. unfold strip_right. rewrite rev_app_distr, strip_left_ws; [reflexivity|apply ws_rev; auto]. Qed.
Lemma strip_right_id s c : ~ sp c -> strip_right (s ++ [c]) = s ++ [c].
Proof. intro H. unfold strip_right. rewrite rev_app_distr. cbn [rev app]. rewrite strip_left_id by auto. cbn [rev]. rewrite rev_involutive. reflexivity. Qed.
(** a text that neither begins nor ends with white space *)
Definition firm (s : bytes) : Prop := match s with [] => False | c :: _ => ~ sp c /\ ~ sp (last s 0) end.
Lemma firm_last s : firm s -> exists r c, s = r ++ [c] /\ ~ sp c.
Proof.
  destruct s as [|a s]; [contradiction|]. intros [_ H]. exists (removelast (a :: s)), (last (a :: s) 0). split; [|exact H].
  apply app_removelast_last. discriminate.
Qed.
Lemma new_lexis_id t w : firm t -> ws w -> new_lexis (t ++ w) = t.
Proof.
  intros F W. unfold new_lexis. destruct t as [|a t]; [contradiction|].
  destruct (firm_last _ F) as (r & c & E & H). destruct F as [Ha _].
  cbn [app]. rewrite strip_left_id by auto. change (a :: t ++ w) with ((a :: t) ++ w). rewrite strip_right_ws by auto. rewrite E. apply strip_right_id; auto.
Qed.
Lemma new_lexis_firm t : firm t -> new_lexis t = t.
Proof. intro F. rewrite <- (app_nil_r t) at 1. apply new_lexis_id; auto. constructor. Qed.
Lemma lexer_ws w r : ws w -> lexer Idle [] (w ++ r) = lexer Idle [] r.
Proof. induction 1 as [|c w H F IH]; [reflexivity|]. cbn [app lexer]. apply sp_b in H. rewrite H. exact IH. Qed.
Definition is_punct (c : byte) : Prop := c = 123 \/ c = 58 \/ c = 125 \/ c = 91 \/ c = 44 \/ c = 93.
Lemma punct_b c : is_punct c <-> punct c = true.
Proof. unfold is_punct, punct. cbn. lia. Qed.
Lemma punct_nb c : ~ is_punct c <-> punct c = false.
Proof. rewrite punct_b. destruct (punct c); split; congruence. Qed.
Lemma punct_sp c : is_punct c -> ~ sp c.
Proof. unfold is_punct, sp. lia. Qed.
Lemma lexer_punct c r : is_punct c -> lexer Idle [] (c :: r) = [c] :: lexer Idle [] r.
Proof.
  intro H. pose proof (punct_sp c H) as N. pose proof N as N'. apply sp_nb in N. pose proof H as P. apply punct_b in H. cbn [lexer]. rewrite N, H.
  rewrite new_lexis_firm by (split; cbn [last]; auto). reflexivity.
Qed.

(** ** bare tokens *)
Definition bare (t : bytes) : Prop :=
  firm t /\ (hd 0 t <> 34 /\ hd 0 t <> 39 /\ hd 0 t <> 47) /\ Forall (fun c => ~ is_punct c /\ c <> 92 /\ c <> 0) t.
Lemma lexer_normal t : Forall (fun c => ~ is_punct c /\ c <> 92 /\ c <> 0) t -> forall p r, lexer Normal p (t ++ r) = lexer Normal (p ++ t) r.
Proof.
  induction 1 as [|c t (H1 & H2 & H3) F IH]; intros p r; cbn [app]; [rewrite app_nil_r; reflexivity|].
  apply punct_nb in H1. cbn [lexer]. rewrite H1. apply N.eqb_neq in H2. rewrite H2. rewrite IH. rewrite <- app_assoc. reflexivity.
Qed.
Lemma ws_normal w : ws w -> Forall (fun c => ~ is_punct c /\ c <> 92 /\ c <> 0) w.
Proof. apply Forall_impl. intros c H. unfold is_punct. lia. Qed.
(** the rest behind a value: white space, then the end or a punctuation *)
Definition stops (r : bytes) : Prop := exists w, ws w /\ (r = w \/ exists c q, r = w ++ c :: q /\ is_punct c).
Lemma lexer_bare t r : bare t -> stops r -> lexer Idle [] (t ++ r) = t :: lexer Idle [] r.
Proof.
  intros (F & (H1 & H2 & H3) & N) (w & W & S). destruct t as [|c t]; [contradiction|]. cbn [hd] in *.
  pose proof (Forall_inv N) as (P & B & Z). pose proof (Forall_inv_tail N) as N'. destruct F as [Fc Fl].
  cbn [app lexer]. pose proof (proj1 (sp_nb c) Fc) as E1. pose proof (proj1 (punct_nb c) P) as E2. rewrite E1, E2.
  assert (S1 : start c = Normal). { unfold start. rewrite !(proj2 (N.eqb_neq _ _)) by auto. reflexivity. }
  rewrite S1. rewrite lexer_normal by auto.
  destruct S as [-> | (p & q & -> & Pp)].
  - pose proof (lexer_normal w (ws_normal w W) ([c] ++ t) []) as L. rewrite app_nil_r in L. rewrite L.
    cbn [lexer]. cbn [app]. change (c :: t ++ w) with ((c :: t) ++ w). rewrite new_lexis_id by (auto; split; auto).
    pose proof (lexer_ws w [] W) as LW. rewrite app_nil_r in LW. rewrite LW. reflexivity.
  - rewrite lexer_normal by (apply ws_normal; auto). cbn [lexer]. rewrite (proj1 (punct_b p) Pp). cbn [app].
    change (c :: t ++ w) with ((c :: t) ++ w). rewrite new_lexis_id by (auto; split; auto).
    rewrite (new_lexis_firm [p]) by (split; cbn [last]; apply punct_sp; auto).
    rewrite lexer_ws by auto. rewrite lexer_punct by auto. reflexivity.
Qed.

(** ** quoted strings and patterns *)
Lemma meaning_char e c : meaning e = Some c -> e <> 0.
Proof. unfold meaning. intros H ->. discriminate. Qed.
Lemma last_app1 (s : bytes) c d : last (s ++ [c]) d = c.
Proof. apply last_last. Qed.
Lemma firm_quote q b : (q = 34 \/ q = 39 \/ q = 47) -> firm (q :: b ++ [q]).
Proof.
  intro H. assert (N : ~ sp q) by (unfold sp; lia). split; [exact N|]. change (q :: b ++ [q]) with ((q :: b) ++ [q]). rewrite last_app1. exact N.
Qed.
Lemma lexer_quoted q l c r : (q = 34 \/ q = 39) -> denotes l c -> Forall (fun p => match p with Plain c => c <> q /\ c <> 0 | Esc _ => True end) l ->
  forall st, st = (if q =? 34 then Double else Single) -> forall p, lexer st p (StrSpec.written l ++ q :: r) = new_lexis (p ++ StrSpec.written l ++ [q]) :: lexer Idle [] r.
Proof.
  intros Q D. revert r. induction D as [|x y l c X D IH]; intros r F st S p.
  - cbn [StrSpec.written map concat app]. subst st. destruct Q as [-> | ->]; reflexivity.
  - pose proof (Forall_inv F) as Fx. pose proof (Forall_inv_tail F) as Fl. 
    assert (IH' : forall p, lexer st p (StrSpec.written l ++ q :: r) = new_lexis (p ++ StrSpec.written l ++ [q]) :: lexer Idle [] r) by (intro; apply IH; auto).
    destruct x as [x|e].
    + destruct X as [X1 ->]. destruct Fx as [X2 X3].
      change (StrSpec.written (Plain x :: l)) with (x :: StrSpec.written l). cbn [app].
      assert (L : lexer st p (x :: StrSpec.written l ++ q :: r) = lexer st (p ++ [x]) (StrSpec.written l ++ q :: r)).
      { subst st. destruct Q as [-> | ->]; cbn [N.eqb Pos.eqb lexer]; rewrite !(proj2 (N.eqb_neq _ _)) by auto; reflexivity. }
      rewrite L, IH'. rewrite <- app_assoc. reflexivity.
    + change (StrSpec.written (Esc e :: l)) with (92 :: e :: StrSpec.written l). cbn [app].
      assert (L : lexer st p (92 :: e :: StrSpec.written l ++ q :: r) = lexer st ((p ++ [92]) ++ [e]) (StrSpec.written l ++ q :: r)).
      { subst st. destruct Q as [-> | ->]; reflexivity. }
      rewrite L, IH'. rewrite <- !app_assoc. reflexivity.
Qed.
Lemma lexer_string k t r : quoted_text k t -> lexer Idle [] (t ++ r) = t :: lexer Idle [] r.
Proof.
  intros (q & l & Q & -> & D & F). cbn [app]. rewrite <- app_assoc. cbn [app].
  assert (L : lexer Idle [] (q :: StrSpec.written l ++ q :: r) = lexer (if q =? 34 then Double else Single) [q] (StrSpec.written l ++ q :: r)) by (destruct Q as [-> | ->]; reflexivity).
  rewrite L. rewrite (lexer_quoted q l k r Q D F _ eq_refl). f_equal. cbn [app]. apply new_lexis_firm. apply firm_quote. lia.
Qed.
Lemma lexer_pattern p r : Forall (fun c => c <> 47 /\ c <> 0) p -> lexer Idle [] ((47 :: p ++ [47]) ++ r) = (47 :: p ++ [47]) :: lexer Idle [] r.
Proof.
  intro F. cbn [app]. rewrite <- app_assoc. cbn [app].
  assert (G : forall b, lexer Pattern b (p ++ 47 :: r) = new_lexis (b ++ p ++ [47]) :: lexer Idle [] r).
  { induction F as [|c p H F IH]; intro b; cbn [app]; [reflexivity|]. cbn [lexer]. rewrite (proj2 (N.eqb_neq c 47)) by tauto. rewrite IH. rewrite <- app_assoc. reflexivity. }
  change (lexer Idle [] (47 :: p ++ 47 :: r)) with (lexer Pattern [47] (p ++ 47 :: r)). rewrite G. f_equal. apply new_lexis_firm. apply firm_quote. auto.
Qed.
Lemma middle_quote q (b : bytes) : middle (q :: b ++ [q]) = Some b.
Proof. cbn [middle]. destruct (b ++ [q]) as [|x y] eqn:E; [destruct b; discriminate|]. rewrite <- E. rewrite removelast_last. reflexivity. Qed.
Lemma enclosed_quote q b c : enclosed c (q :: b ++ [q]) = (q =? c).
Proof. cbn [enclosed]. change (q :: b ++ [q]) with ((q :: b) ++ [q]). rewrite last_app1. destruct (q =? c); reflexivity. Qed.
Lemma filter_quoted k t : quoted_text k t -> filter_string t = Some k.
Proof.
  intros (q & l & Q & -> & D & F). unfold filter_string. rewrite !enclosed_quote, middle_quote.
  destruct Q as [-> | ->]; cbn [N.eqb Pos.eqb option_map]; rewrite (unescape_ok l k D); reflexivity.
Qed.

(** ** numbers *)
Definition exprchar (c : byte) : Prop := c <> 0 /\ c <> 34 /\ c <> 39 /\ c <> 92 /\ c <> 123 /\ c <> 58 /\ c <> 125 /\ c <> 91 /\ c <> 93.
Lemma decimal_chars d : decimal d -> Forall (fun b => digit b \/ b = 46 \/ b = 101 \/ b = 69 \/ b = 43 \/ b = 45) d.
Proof.
  intros (i & f & x & -> & Fi & Ff & Fx & _). apply Forall_app; split; [eapply Forall_impl; [|exact Fi]; cbn; auto|]. apply Forall_app; split.
  - destruct Ff as [-> | (e & -> & Fd)]; [constructor|]. constructor; [auto|]. eapply Forall_impl; [|exact Fd]; cbn; auto.
  - destruct Fx as [-> | (m & g & e & -> & Hm & Hg & _ & Fd)]; [constructor|]. constructor; [lia|]. apply Forall_app; split.
    + destruct Hg as [-> | [-> | ->]]; repeat constructor; lia.
    + eapply Forall_impl; [|exact Fd]; cbn; auto.
Qed.
Lemma spells_chars t w : spells t w -> Forall exprchar w.
Proof.
  destruct 1; try (repeat constructor; discriminate).
  - apply decimal_chars in H. eapply Forall_impl; [|exact H]. cbn. unfold digit, exprchar. intros; lia.
  - destruct H as (x & d & -> & X & _ & F). constructor; [unfold exprchar; lia|]. constructor; [unfold exprchar; lia|]. eapply Forall_impl; [|exact F]. cbn. unfold hex_digit, digit, exprchar. intros; lia.
  - destruct (named_word _ _ H) as [F _]. eapply Forall_impl; [|exact F]. cbn. intros c E. unfold isword, isalpha, isdigit in E. unfold exprchar. lia.
Qed.
Lemma written_chars ts s : ExprSpec.written ts s -> Forall exprchar s.
Proof.
  induction 1.
  - eapply Forall_impl; [|exact H]. cbn. unfold exprchar. lia.
  - apply Forall_app; split; [eapply Forall_impl; [|exact H]; cbn; unfold exprchar; lia|]. apply Forall_app; split; [eapply spells_chars; eauto|auto].
Qed.
Definition opens (ts : list token) : Prop := match ts with TNum _ :: _ | TFun _ _ :: _ | TOpen :: _ | TAdd :: _ | TSub :: _ => True | _ => False end.
Lemma opens_app ts r : opens ts -> opens (ts ++ r).
Proof. destruct ts as [|[]]; cbn; auto; contradiction. Qed.
Lemma derives_opens l ts t : derives l ts t -> opens ts.
Proof.
  induction 1; cbn; auto using opens_app.
  destruct sg as [|x sg]; [exact IHderives|]. destruct (Forall_inv H) as [-> | ->]; exact I.
Qed.
Lemma number_bare A x s : number_text A x s -> bare s.
Proof.
  intros (ts & t & W & D & _ & C & Hf & Hl). pose proof (written_chars _ _ W) as F. apply derives_opens in D.
  assert (HD : exists c r, s = c :: r /\ c <> 34 /\ c <> 39 /\ c <> 47).
  { inversion W as [bl B E1 E2 | bl t0 w ts0 s0 B Sp En W0 E1 E2].
    - subst ts. contradiction.
    - subst ts. destruct bl as [|b bl].
      2:{ subst s. exfalso. cbn [app] in Hf. destruct (Hf _ _ eq_refl). destruct (Forall_inv B); congruence. }
      cbn [app]. cbn [opens] in D. destruct Sp; try contradiction.
      + pose proof (decimal_chars _ H) as Fd. destruct (decimal_start _ H) as (c & r & -> & _). exists c, (r ++ s0). split; [reflexivity|]. apply Forall_inv in Fd. unfold digit in Fd. lia.
      + destruct H as (x0 & d & -> & _). eexists _, _. split; [reflexivity|]. repeat split; discriminate.
      + destruct (named_word _ _ H) as (_ & c & r & -> & E & _). exists c, (r ++ s0). split; [reflexivity|]. unfold isalpha in E. lia.
      + eexists _, _. split; [reflexivity|]. repeat split; discriminate.
      + eexists _, _. split; [reflexivity|]. repeat split; discriminate.
      + eexists _, _. split; [reflexivity|]. repeat split; discriminate. }
  destruct HD as (c & r & E & H1 & H2 & H3).
  assert (SPC : forall y, exprchar y -> In y s -> sp y -> y = 32 \/ y = 9).
  { (* white space of an expression is a space or a tab *)
    clear - W. intros y _. revert y. induction W; intros y I S.
    - assert (Q := proj1 (Forall_forall _ _) H y I). cbn in Q. lia.
    - apply in_app_or in I. destruct I as [I|I]; [assert (Q := proj1 (Forall_forall _ _) H y I); cbn in Q; lia|].
      apply in_app_or in I. destruct I as [I|I]; [|auto].
      exfalso. unfold sp in S. destruct H0; try (cbn in I; destruct I as [<-|[]]; lia).
      + pose proof (decimal_chars _ H0) as Fd. assert (Q := proj1 (Forall_forall _ _) Fd y I). cbn in Q. unfold digit in Q. lia.
      + destruct H0 as (x0 & d & -> & X0 & _ & Fd). destruct I as [<-|[<-|I]]; [lia|lia|]. assert (Q := proj1 (Forall_forall _ _) Fd y I). cbn in Q. unfold hex_digit, digit in Q. lia.
      + destruct (named_word _ _ H0) as (Fw & _). assert (Q := proj1 (Forall_forall _ _) Fw y I). cbn in Q. unfold isword, isalpha, isdigit in Q. lia. }
  assert (FI : firm s).
  { rewrite E. split.
    - intro S. destruct (Hf _ _ E) as [Q1 Q2]. assert (EC : exprchar c) by (rewrite E in F; apply Forall_inv in F; exact F). assert (IC : In c s) by (rewrite E; left; auto). destruct (SPC c EC IC S); congruence.
    - rewrite <- E. assert (EL : s = removelast s ++ [last s 0]) by (apply app_removelast_last; rewrite E; discriminate).
      intro S. destruct (Hl _ _ EL) as [Q1 Q2].
      assert (I : In (last s 0) s) by (rewrite EL at 2; apply in_or_app; right; left; auto).
      destruct (SPC (last s 0)); auto. exact (proj1 (Forall_forall _ _) F _ I). }
  split; [exact FI|]. split; [rewrite E; auto|].
  apply Forall_forall. intros y I. assert (Q := proj1 (Forall_forall _ _) F y I). unfold exprchar in Q. assert (y <> 44) by (intros ->; auto). unfold is_punct. lia.
Qed.

(** ** more calls do not change a result *)
Section Calls.
Variable num : Type.
Variable ev : bytes -> option num.
Lemma syntax_mono1 : forall f k ts r, syntax ev f k ts = r -> r <> Calls -> syntax ev (S f) k ts = r.
Proof.
  induction f as [|f IH]; intros k ts r E NF; [cbn [syntax] in E; congruence|].
  assert (GG : forall g, (forall k ts, syntax ev f k ts <> Calls -> syntax ev g k ts = syntax ev f k ts) -> syntax ev (S g) k ts = syntax ev (S f) k ts).
  2:{ rewrite (GG (S f)); [exact E|]. intros k0 ts0 H; apply IH; auto. }
  clear IH. subst r. intros g IH'. cbn [syntax] in NF |- *.
  assert (X : forall ts0 (h h' : value num -> list bytes -> pres num), (forall v q, h' v q <> Calls -> h v q = h' v q) ->
     match syntax ev f Value ts0 with Done v q => h' v q | e => e end <> Calls ->
     match syntax ev g Value ts0 with Done v q => h v q | e => e end = match syntax ev f Value ts0 with Done v q => h' v q | e => e end).
  { intros ts0 h h' K H. destruct (syntax ev f Value ts0) eqn:P.
    - rewrite IH', P by congruence. apply K; auto.
    - rewrite IH', P by congruence. reflexivity.
    - rewrite IH', P by congruence. reflexivity.
    - congruence. }
  destruct k as [|l|l]; destruct ts as [|t r]; try reflexivity.
  - destruct (bytes_eqb t (str "null")); [reflexivity|]. destruct (bytes_eqb t (str "false")); [reflexivity|]. destruct (bytes_eqb t (str "true")); [reflexivity|].
    destruct (bytes_eqb t (str "[")); [apply IH'; auto|]. destruct (bytes_eqb t (str "{")); [apply IH'; auto|]. reflexivity.
  - destruct (bytes_eqb t (str "]")); [reflexivity|]. apply X; auto. intros v q H. destruct q as [|t' q']; [reflexivity|].
    destruct (bytes_eqb t' (str ",")); [apply IH'; auto|reflexivity].
  - destruct (bytes_eqb t (str "}")); [reflexivity|]. destruct (filter_string t); [|reflexivity]. destruct r as [|t1 r1]; [reflexivity|].
    destruct (bytes_eqb t1 (str ":")); [|reflexivity]. apply X; auto. intros v q H. destruct q as [|t' q']; [reflexivity|].
    destruct (bytes_eqb t' (str ",")); [apply IH'; auto|reflexivity].
Qed.
Lemma syntax_mono : forall f g k ts r, (f <= g)%nat -> syntax ev f k ts = r -> r <> Calls -> syntax ev g k ts = r.
Proof. induction 1; intros; auto. apply syntax_mono1; auto. Qed.
Definition parses (k : task num) (ts : list bytes) (r : pres num) : Prop := exists f, forall g, (f <= g)%nat -> syntax ev g k ts = r.

(** *** the descent ends *)
Definition rk (k : task num) : nat := match k with Value => 1 | _ => 2 end.
Lemma syntax_ends : forall f k ts, (rk k + 2 * length ts <= f)%nat ->
  syntax ev f k ts <> Calls /\ forall v q, syntax ev f k ts = Done v q -> (length q <= length ts - 1)%nat.
Proof.
  induction f as [|f IH]; intros k ts B; [destruct k; cbn [rk] in B; lia|].
  assert (D : forall (v : value num) q n, (length q <= n)%nat -> Done v q <> Calls /\ forall v0 q0, Done v q = Done v0 q0 -> (length q0 <= n)%nat).
  { intros v q n L. split; [discriminate|]. intros v0 q0 E. injection E as <- <-. exact L. }
  assert (Fl : forall n, @Fails num <> Calls /\ forall (v0 : value num) q0, Fails = Done v0 q0 -> (length q0 <= n)%nat) by (intro n; split; discriminate).
  assert (Th : forall n, @Throws num <> Calls /\ forall (v0 : value num) q0, Throws = Done v0 q0 -> (length q0 <= n)%nat) by (intro n; split; discriminate).
  cbn [syntax]. destruct k as [|l|l]; destruct ts as [|t r]; try apply Fl; cbn [rk] in *.
  - apply D. cbn [length]. lia.
  - cbn [length] in *. repeat match goal with |- context [if bytes_eqb t ?s then Done _ _ else _] => destruct (bytes_eqb t s); [apply D; lia|] end.
    destruct (bytes_eqb t (str "[")).
    { destruct (IH (Items []) r) as [H1 H2]; [cbn [rk]; lia|]. split; [exact H1|]. intros v q E. specialize (H2 _ _ E). lia. }
    destruct (bytes_eqb t (str "{")).
    { destruct (IH (Members []) r) as [H1 H2]; [cbn [rk]; lia|]. split; [exact H1|]. intros v q E. specialize (H2 _ _ E). lia. }
    destruct (prefixb (str "/") t).
    { destruct (enclosed 47 t); [destruct (middle t)|]; auto; apply D; lia. }
    destruct (bytes_eqb t (str ":")); [auto|]. destruct (bytes_eqb t (str ",")); [auto|].
    destruct (ev t); [apply D; lia|]. destruct (filter_string t); [apply D; lia|auto].
  - cbn [length] in *. destruct (bytes_eqb t (str "]")); [apply D; lia|].
    destruct (IH Value (t :: r)) as [H1 H2]; [cbn [rk length]; lia|]. cbn [length] in H2.
    destruct (syntax ev f Value (t :: r)) as [v q| | |] eqn:P; auto; try (exfalso; apply H1; reflexivity).
    specialize (H2 _ _ eq_refl). destruct q as [|t' q']; [auto|]. cbn [length] in H2. destruct (bytes_eqb t' (str ",")).
    + destruct (IH (Items (l ++ [v])) q') as [H3 H4]; [cbn [rk]; lia|]. split; [exact H3|]. intros v0 q0 E. specialize (H4 _ _ E). lia.
    + destruct (bytes_eqb t' (str "]")); [apply D; lia|auto].
  - cbn [length] in *. destruct (bytes_eqb t (str "}")); [apply D; lia|]. destruct (filter_string t) as [key|]; [|auto].
    destruct r as [|t1 r1]; [auto|]. destruct (bytes_eqb t1 (str ":")); [|auto]. cbn [length] in *.
    destruct (IH Value r1) as [H1 H2]; [cbn [rk]; lia|].
    destruct (syntax ev f Value r1) as [v q| | |] eqn:P; auto; try (exfalso; apply H1; reflexivity).
    specialize (H2 _ _ eq_refl). destruct q as [|t' q']; [auto|]. cbn [length] in H2. destruct (bytes_eqb t' (str ",")).
    + destruct (IH (Members (l ++ [(key, v)])) q') as [H3 H4]; [cbn [rk]; lia|]. split; [exact H3|]. intros v0 q0 E. specialize (H4 _ _ E). lia.
    + destruct (bytes_eqb t' (str "}")); [apply D; lia|auto].
Qed.
Lemma depth_ends ts : syntax ev (depth ts) Value ts <> Calls.
Proof. apply syntax_ends. unfold depth. cbn [rk]. lia. Qed.
Lemma parses_depth ts r : parses Value ts r -> syntax ev (depth ts) Value ts = r.
Proof.
  intros (f & E). pose proof (depth_ends ts) as N.
  rewrite <- (E (f + depth ts)%nat) by lia. symmetry. apply (syntax_mono (depth ts)); [lia|reflexivity|exact N].
Qed.

(** *** exceptions come from single quote tokens *)
Definition lone (t : bytes) : Prop := t = [34] \/ t = [39] \/ t = [47].
Lemma enclosed_one c t : enclosed c t = true -> middle t = None -> t = [c].
Proof.
  destruct t as [|a [|b t]]; cbn [enclosed middle]; try discriminate. cbn [last]. intros E _. apply andb_true_iff in E. destruct E as [E _]. apply N.eqb_eq in E. congruence.
Qed.
Lemma filter_lone t : filter_string t = None -> lone t.
Proof.
  unfold filter_string, lone. destruct (enclosed 34 t) eqn:E1.
  - destruct (middle t) eqn:M; [discriminate|]. intros _. left. apply enclosed_one; auto.
  - destruct (enclosed 39 t) eqn:E2; [|discriminate]. destruct (middle t) eqn:M; [discriminate|]. intros _. right; left. apply enclosed_one; auto.
Qed.
Lemma syntax_throws : forall f k ts, syntax ev f k ts = Throws -> exists t, In t ts /\ lone t.
Proof.
  assert (SUF : forall f k ts v q, syntax ev f k ts = Done v q -> incl q ts).
  { induction f as [|f IH]; intros k ts v q E; [discriminate|]. cbn [syntax] in E.
    destruct k as [|l|l]; destruct ts as [|t r]; try discriminate.
    - injection E as _ <-. apply incl_refl.
    - assert (T : forall v0, Done v0 r = Done v q -> incl q (t :: r)) by (intros v0 H; injection H as _ <-; apply incl_tl, incl_refl).
      repeat match type of E with (if ?b then Done _ _ else _) = _ => destruct b; [eapply T; exact E|] end.
      destruct (bytes_eqb t (str "[")); [apply incl_tl; eapply IH; exact E|]. destruct (bytes_eqb t (str "{")); [apply incl_tl; eapply IH; exact E|].
      destruct (prefixb (str "/") t).
      { destruct (enclosed 47 t); [destruct (middle t); [|discriminate]|]; eapply T; exact E. }
      destruct (bytes_eqb t (str ":")); [discriminate|]. destruct (bytes_eqb t (str ",")); [discriminate|].
      destruct (ev t); [eapply T; exact E|]. destruct (filter_string t); [eapply T; exact E|discriminate].
    - destruct (bytes_eqb t (str "]")); [injection E as _ <-; apply incl_tl, incl_refl|].
      destruct (syntax ev f Value (t :: r)) as [v1 q1| | |] eqn:P; try discriminate. apply IH in P.
      destruct q1 as [|t' q']; [discriminate|]. apply incl_cons_inv in P. destruct P as [_ P].
      destruct (bytes_eqb t' (str ",")); [eapply incl_tran; [eapply IH; exact E|exact P]|].
      destruct (bytes_eqb t' (str "]")); [|discriminate]. injection E as _ <-. exact P.
    - destruct (bytes_eqb t (str "}")); [injection E as _ <-; apply incl_tl, incl_refl|].
      destruct (filter_string t); [|discriminate]. destruct r as [|t1 r1]; [discriminate|]. destruct (bytes_eqb t1 (str ":")); [|discriminate].
      destruct (syntax ev f Value r1) as [v1 q1| | |] eqn:P; try discriminate. apply IH in P.
      destruct q1 as [|t' q']; [discriminate|]. apply incl_cons_inv in P. destruct P as [_ P]. apply (incl_tl t1) in P. apply (incl_tl t) in P.
      destruct (bytes_eqb t' (str ",")); [eapply incl_tran; [eapply IH; exact E|exact P]|].
      destruct (bytes_eqb t' (str "}")); [|discriminate]. injection E as _ <-. exact P. }
  induction f as [|f IH]; intros k ts E; [discriminate|]. cbn [syntax] in E.
  destruct k as [|l|l]; destruct ts as [|t r]; try discriminate.
  - repeat match type of E with (if ?b then Done _ _ else _) = _ => destruct b; [discriminate|] end.
    assert (R : (exists t0, In t0 r /\ lone t0) -> exists t0, In t0 (t :: r) /\ lone t0) by (intros (t0 & I0 & L0); exists t0; split; [right; auto|auto]).
    destruct (bytes_eqb t (str "[")); [apply R; eapply IH; exact E|]. destruct (bytes_eqb t (str "{")); [apply R; eapply IH; exact E|].
    destruct (prefixb (str "/") t).
    { destruct (enclosed 47 t) eqn:En; [|discriminate]. destruct (middle t) eqn:M; [discriminate|]. exists t. split; [left; auto|]. right; right. apply enclosed_one; auto. }
    destruct (bytes_eqb t (str ":")); [discriminate|]. destruct (bytes_eqb t (str ",")); [discriminate|].
    destruct (ev t); [discriminate|]. destruct (filter_string t) eqn:Fs; [discriminate|]. exists t. split; [left; auto|]. apply filter_lone; auto.
  - destruct (bytes_eqb t (str "]")); [discriminate|].
    destruct (syntax ev f Value (t :: r)) as [v1 q1| | |] eqn:P; try discriminate.
    + apply SUF in P. destruct q1 as [|t' q']; [discriminate|]. destruct (bytes_eqb t' (str ",")).
      * destruct (IH _ _ E) as (t0 & I0 & L0). exists t0. split; [apply P; right; exact I0|exact L0].
      * destruct (bytes_eqb t' (str "]")); discriminate.
    + apply (IH _ _ P).
  - destruct (bytes_eqb t (str "}")); [discriminate|]. destruct (filter_string t) eqn:Fs.
    2:{ exists t. split; [left; auto|]. apply filter_lone; auto. }
    destruct r as [|t1 r1]; [discriminate|]. destruct (bytes_eqb t1 (str ":")); [|discriminate].
    destruct (syntax ev f Value r1) as [v1 q1| | |] eqn:P; try discriminate.
    + apply SUF in P. destruct q1 as [|t' q']; [discriminate|]. destruct (bytes_eqb t' (str ",")).
      * destruct (IH _ _ E) as (t0 & I0 & L0). exists t0. split; [right; right; apply P; right; exact I0|exact L0].
      * destruct (bytes_eqb t' (str "}")); discriminate.
    + destruct (IH _ _ P) as (t0 & I0 & L0). exists t0. split; [right; right; exact I0|exact L0].
Qed.
End Calls.
