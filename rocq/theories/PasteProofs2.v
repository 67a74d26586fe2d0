(** Proofs about JSON printed for pasting: lines, widths and the whole failure. *)
From Coq Require Import List NArith ZArith Bool Arith Lia.
From Verif Require Import Base FilterModel StrModel StrSpec ExprModel ExprSpec ExprProofs2 LineModel JsonModel JsonSpec JsonProofs JsonProofs2 JsonProofs3 PrintModel PrintSpec PrintProofs PasteModel PasteSpec PasteProofs.
Import ListNotations.
Local Open Scope N_scope.

Lemma text_one w : isctrl w = false -> text [w] = w.
Proof. intro C. unfold text. cbn [filter]. rewrite C. cbn. apply app_nil_r. Qed.
Lemma ctrl_spaces n : isctrl (repeat 32 n) = false.
Proof. destruct n; reflexivity. Qed.
Lemma text_padding l n : text (padding l n) = text l ++ repeat 32 n.
Proof. unfold padding. destruct (n =? 0)%nat eqn:E; [apply Nat.eqb_eq in E; subst; symmetry; apply app_nil_r|]. rewrite text_app, text_one by apply ctrl_spaces. reflexivity. Qed.
Lemma text_indent l n : text (indent l n) = repeat 32 n ++ text l.
Proof. unfold indent. destruct (n =? 0)%nat eqn:E; [apply Nat.eqb_eq in E; subst; reflexivity|]. unfold text. cbn [filter]. rewrite ctrl_spaces. reflexivity. Qed.
Lemma ws_spaces n : ws (repeat 32 n).
Proof. induction n; cbn [repeat]; constructor; [left; reflexivity|exact IHn]. Qed.
Lemma blank_spaces n : forallb blank (repeat 32 n ++ [10]) = true.
Proof. induction n; [reflexivity|exact IHn]. Qed.
Lemma splice_spaces n : splice (repeat 32 n ++ [10]) = repeat 32 n ++ [10].
Proof. rewrite (splice_spelt _ _ [10] (spelt_spaces n)). reflexivity. Qed.
Lemma rendered_end xs t n : rendered xs t -> rendered xs (t ++ repeat 32 n).
Proof. intro R. rewrite <- (app_nil_r xs). apply rendered_join; [exact R|constructor; apply ws_spaces]. Qed.
Lemma continued_cons m l r k : continued m (l :: r) = Some k -> exists w k', line_width l = Some w /\ continued m r = Some k' /\ k = (padding l (m - w + 3) ++ match r with [] => [] | _ => [[92]] end) :: k'.
Proof. cbn [continued]. destruct (line_width l) as [w|]; [|discriminate]. destruct (continued m r) as [k'|]; [|discriminate]. intro E. inversion E. eauto. Qed.
Lemma close_quote_cons l x r : close_quote (l :: x :: r) = l :: close_quote (x :: r).
Proof. reflexivity. Qed.
Lemma close_quote_some x r : exists y z, close_quote (x :: r) = y :: z.
Proof. destruct r; cbn [close_quote]; eauto. Qed.

(** the lines behind the first *)
Lemma rest_literal n m : forall ls ls', Forall2 (Forall2 word_ok) ls ls' -> ls <> [] -> forall k, continued m (close_quote ls) = Some k ->
  exists s t e, splice (printl (map (fun x => indent x n) k)) = s ++ 34 :: e /\ spelt s t /\ forallb blank e = true /\ rendered (sig ls') t.
Proof.
  induction ls as [|l ls IH]; intros ls' F NE k C; [congruence|]. inversion F as [|? l' ? r' HL HR]. subst. pose proof (spelt_text _ _ HL) as SL. destruct ls as [|x ls].
  - inversion HR. subst. cbn [close_quote] in C. apply continued_cons in C. destruct C as (w & k' & W & C & ->). inversion C. subst k'. cbn [map printl concat]. unfold printl. cbn [map concat].
    rewrite !app_nil_r, text_indent, text_padding, text_app, (text_one [34]) by reflexivity.
    exists (repeat 32 n ++ text l), (repeat 32 n ++ text l'), (repeat 32 (m - w + 3) ++ [10]). split; [|split; [|split]].
    + rewrite <- !app_assoc. rewrite (splice_spelt _ _ _ (spelt_spaces n)). f_equal. rewrite (splice_spelt _ _ _ SL). f_equal. cbn [app]. rewrite splice_cons by discriminate. rewrite splice_spaces. reflexivity.
    + apply spelt_app; [apply spelt_spaces|exact SL].
    + apply blank_spaces.
    + apply rendered_ws; [apply ws_spaces|]. rewrite sig_one. apply rendered_line.
  - rewrite close_quote_cons in C. apply continued_cons in C. destruct C as (w & k' & W & C & ->). destruct (IH r' HR ltac:(discriminate) k' C) as (s & t & e & E & S & B & RD).
    destruct (close_quote_some x ls) as (y & z & CQ). rewrite CQ. unfold printl in *. cbn [map concat]. rewrite text_indent, text_app, text_padding, (text_one [92]) by reflexivity.
    exists (repeat 32 n ++ text l ++ repeat 32 (m - w + 3) ++ s), (repeat 32 n ++ text l' ++ repeat 32 (m - w + 3) ++ t), e. split; [|split; [|split]].
    + rewrite <- !app_assoc. rewrite (splice_spelt _ _ _ (spelt_spaces n)). f_equal. rewrite (splice_spelt _ _ _ SL). f_equal. rewrite (splice_spelt _ _ _ (spelt_spaces _)). f_equal. cbn [app].
      match goal with |- splice (92 :: 10 :: ?X) = _ => change (splice (92 :: 10 :: X)) with (splice X) end. exact E.
    + repeat apply spelt_app; auto using spelt_spaces.
    + exact B.
    + apply rendered_ws; [apply ws_spaces|]. change (l' :: r') with ([l'] ++ r'). rewrite sig_app. apply rendered_join; [rewrite sig_one; apply rendered_line|]. apply rendered_ws; [apply ws_spaces|exact RD].
Qed.
Lemma lines_literal n : forall ls ls' k, Forall2 (Forall2 word_ok) ls ls' -> ls <> [] -> pasted ls = Some k -> exists t, c_value (printl (hang n k)) = Some t /\ rendered (sig ls') t.
Proof.
  intros ls ls' k F NE P. unfold pasted in P. destruct (lines_width (in_quotes ls)) as [m|]; [|discriminate]. destruct ls as [|l ls]; [congruence|]. inversion F as [|? l' ? r' HL HR]. subst. pose proof (spelt_text _ _ HL) as SL.
  cbn [in_quotes] in P. destruct ls as [|x ls].
  - inversion HR. subst. cbn [close_quote] in P. apply continued_cons in P. destruct P as (w & k' & W & C & ->). inversion C. subst k'. cbn [hang map]. unfold printl. cbn [map concat].
    rewrite !app_nil_r, text_padding, !text_app, !(text_one [34]) by reflexivity. unfold c_value.
    match goal with |- context [splice ?X] => assert (E : splice X = 34 :: text l ++ 34 :: repeat 32 (m - w + 3) ++ [10]) end.
    { rewrite <- !app_assoc. cbn [app]. rewrite <- ?app_assoc. cbn [app]. rewrite splice_cons by discriminate. f_equal. rewrite (splice_spelt _ _ _ SL). f_equal. rewrite splice_cons by discriminate. rewrite splice_spaces. reflexivity. }
    rewrite E. rewrite (chars_spelt _ _ _ SL). rewrite blank_spaces. exists (text l'). split; [reflexivity|]. rewrite sig_one. apply rendered_line.
  - rewrite close_quote_cons in P. apply continued_cons in P. destruct P as (w & k' & W & C & ->). destruct (rest_literal n m (x :: ls) r' HR ltac:(discriminate) k' C) as (s & t & e & E & S & B & RD).
    destruct (close_quote_some x ls) as (y & z & CQ). rewrite CQ. cbn [hang]. unfold printl in *. cbn [map concat]. rewrite text_app, text_padding, text_app, (text_one [92]), (text_one [34]) by reflexivity. unfold c_value.
    match goal with |- context [splice ?X] => assert (E2 : splice X = 34 :: text l ++ repeat 32 (m - w + 3) ++ s ++ 34 :: e) end.
    { rewrite <- !app_assoc. cbn [app]. rewrite splice_cons by discriminate. f_equal. rewrite (splice_spelt _ _ _ SL). f_equal. rewrite (splice_spelt _ _ _ (spelt_spaces _)). f_equal.
      match goal with |- splice (92 :: 10 :: ?X) = _ => change (splice (92 :: 10 :: X)) with (splice X) end. exact E. }
    rewrite E2. exists (text l' ++ repeat 32 (m - w + 3) ++ t). split.
    + replace (text l ++ repeat 32 (m - w + 3) ++ s ++ 34 :: e) with ((text l ++ repeat 32 (m - w + 3) ++ s) ++ 34 :: e) by (rewrite <- !app_assoc; reflexivity).
      rewrite (chars_spelt _ (text l' ++ repeat 32 (m - w + 3) ++ t)); [rewrite B; reflexivity|]. repeat apply spelt_app; auto using spelt_spaces.
    + change (l' :: r') with ([l'] ++ r'). rewrite sig_app. apply rendered_join; [rewrite sig_one; apply rendered_line|]. apply rendered_ws; [apply ws_spaces|exact RD].
Qed.
Lemma format_some {num} (show : num -> bytes) fold q depth more k v : format show fold q depth more k v <> [].
Proof. destruct v; cbn [format]; try discriminate; destruct (fold && foldable _); discriminate. Qed.
Lemma quote_blank q qd : literal_quote q qd -> blank_word q = false /\ (qd = 34 \/ qd = 39).
Proof. intros [[-> ->]|[-> ->]]; split; auto. Qed.
Lemma literal A show refused fold q qd s v n ls : literal_quote q qd -> tree_of (evaluate A) s = Done v [] -> copyable A show qd v -> dump (evaluate A) show refused fold q s = Some ls ->
  exists t, c_value (printl (hang n ls)) = Some t /\ document A v t.
Proof.
  intros Q T C D. destruct (quote_blank q qd Q) as [B QD]. unfold dump in D. rewrite T, B in D. destruct (format_spelt qd A show QD q Q fold v C 0%nat false [] (Forall_nil _)) as (ls' & F & FI).
  destruct (lines_literal n _ _ _ F (format_some _ _ _ _ _ _ _) D) as (t & E & RD). exists t. split; [exact E|]. apply (rendered_documentq qd A show QD v t C).
  cbn [kwordsq comma app] in FI. rewrite app_nil_r in FI. eapply finer_rendered; [exact FI|exact RD].
Qed.
Lemma literal_parses A show refused fold q qd s v n ls : literal_quote q qd -> tree_of (evaluate A) s = Done v [] -> copyable A show qd v -> dump (evaluate A) show refused fold q s = Some ls ->
  exists t, c_value (printl (hang n ls)) = Some t /\ tree_of (evaluate A) t = Done v [].
Proof. intros Q T C D. destruct (literal A show refused fold q qd s v n ls Q T C D) as (t & E & DO). exists t. split; [exact E|]. apply tree_of_document. exact DO. Qed.

(** ** the backslashes stand in one column *)
Lemma line_width_app a b : line_width (a ++ b) = match line_width a, line_width b with Some x, Some y => Some (x + y)%nat | _, _ => None end.
Proof.
  induction a as [|w a IH]; [cbn; destruct (line_width b); reflexivity|]. cbn [app line_width]. destruct (isctrl w); [exact IH|]. rewrite IH. destruct (width w), (line_width a), (line_width b); try reflexivity. f_equal. lia.
Qed.
Lemma width_ascii s : Forall (fun c => c < 128) s -> width s = Some (length s).
Proof.
  induction 1 as [|c s H F IH]; [reflexivity|]. cbn [width length].
  assert (U : utf8len c = 1%nat).
  { unfold utf8len. assert (forall m k, N.testbit k 7 = true -> N.testbit c 7 = false -> (N.land m c =? k) = false) as G.
    { intros m k T1 T2. apply N.eqb_neq. intro E. rewrite <- E, N.land_spec, T2, andb_false_r in T1. discriminate. }
    assert (T : N.testbit c 7 = false). { destruct (N.eq_dec c 0) as [->|N0]; [reflexivity|]. apply N.bits_above_log2. assert (N.log2 c <= N.log2 127) by (apply N.log2_le_mono; lia). change (N.log2 127) with 6 in H0. lia. }
    rewrite !G by (auto; reflexivity). reflexivity. }
  rewrite U, IH. reflexivity.
Qed.
Lemma width_spaces n : width (repeat 32 n) = Some n.
Proof. rewrite width_ascii; [rewrite repeat_length; reflexivity|]. apply Forall_forall. intros c I. apply repeat_spec in I. lia. Qed.
Lemma line_width_padding l n w : line_width l = Some w -> line_width (padding l n) = Some (w + n)%nat.
Proof.
  intro W. unfold padding. destruct (n =? 0)%nat eqn:E; [apply Nat.eqb_eq in E; subst; rewrite W; f_equal; lia|]. rewrite line_width_app, W. cbn [line_width]. rewrite ctrl_spaces, width_spaces. f_equal. lia.
Qed.
Lemma lines_width_le ls m : lines_width ls = Some m -> Forall (fun l => exists w, line_width l = Some w /\ (w <= m)%nat) ls.
Proof.
  revert m. induction ls as [|l ls IH]; intros m H; [constructor|]. cbn [lines_width] in H. destruct (line_width l) as [a|] eqn:W; [|discriminate]. destruct (lines_width ls) as [b|] eqn:L; [|discriminate]. inversion H. subst.
  constructor; [exists a; split; [exact W|lia]|]. eapply Forall_impl; [|exact (IH b eq_refl)]. intros x (w & H1 & H2). exists w. split; [exact H1|lia].
Qed.
Lemma continued_straight m : forall ls k, Forall (fun l => exists w, line_width l = Some w /\ (w <= m)%nat) ls -> continued m ls = Some k ->
  length k = length ls /\ forall i l, nth_error k i = Some l -> S i <> length k -> exists l', l = l' ++ [[92]] /\ line_width l' = Some (m + 3)%nat.
Proof.
  induction ls as [|l ls IH]; intros k F C; [inversion C; split; [reflexivity|intros [|i] l H; discriminate]|]. apply continued_cons in C. destruct C as (w & k' & W & C & ->).
  destruct (IH k' (Forall_inv_tail F) C) as [L N]. split; [cbn [length]; rewrite L; reflexivity|]. intros [|i] x H I.
  - cbn in H. inversion H. subst x. destruct ls as [|y ls]; [cbn in L; rewrite (proj1 (length_zero_iff_nil k') L) in I; cbn in I; lia|]. eexists. split; [reflexivity|].
    destruct (Forall_inv F) as (w' & W' & LE). assert (w' = w) by congruence. subst w'. rewrite (line_width_padding _ _ _ W). f_equal. lia.
  - cbn in H. apply (N i x H). cbn [length] in I. lia.
Qed.
Lemma straight {num} (ev : bytes -> option num) show refused fold q s v ls : tree_of ev s = Done v [] -> blank_word q = false -> dump ev show refused fold q s = Some ls ->
  exists m, forall i l, nth_error ls i = Some l -> S i <> length ls -> exists l', l = l' ++ [[92]] /\ line_width l' = Some m.
Proof.
  intros T B D. unfold dump in D. rewrite T, B in D. unfold pasted in D. destruct (lines_width _) as [m|] eqn:L; [|discriminate]. exists (m + 3)%nat. apply (continued_straight m _ _ (lines_width_le _ _ L) D).
Qed.

(** ** ASCII is always printed *)
Definition ascii_word (w : bytes) : Prop := Forall (fun c => c < 128) w.
Lemma ascii_line l : Forall ascii_word l -> exists w, line_width l = Some w.
Proof. induction 1 as [|w l H F (x & E)]; [exists 0%nat; reflexivity|]. cbn [line_width]. destruct (isctrl w); [eauto|]. rewrite (width_ascii _ H), E. eauto. Qed.
Lemma ascii_lines ls : Forall (Forall ascii_word) ls -> exists m, lines_width ls = Some m.
Proof. induction 1 as [|l ls H F (x & E)]; [exists 0%nat; reflexivity|]. destruct (ascii_line l H) as (y & Y). cbn [lines_width]. rewrite Y, E. eauto. Qed.
Lemma ascii_continued m ls : Forall (Forall ascii_word) ls -> exists k, continued m ls = Some k.
Proof. induction 1 as [|l ls H F (x & E)]; [exists []; reflexivity|]. destruct (ascii_line l H) as (y & Y). cbn [continued]. rewrite Y, E. eauto. Qed.
Lemma ascii_str (w : bytes) : forallb (fun c => c <? 128) w = true -> ascii_word w.
Proof. intro H. rewrite forallb_forall in H. apply Forall_forall. intros c I. apply N.ltb_lt. apply H. exact I. Qed.
Lemma ascii_spaces n : ascii_word (repeat 32 n).
Proof. apply Forall_forall. intros c I. apply repeat_spec in I. lia. Qed.
Lemma ascii_indent n : Forall ascii_word (indent ([] : line) n).
Proof. unfold indent. destruct (n =? 0)%nat; constructor; [apply ascii_spaces|constructor]. Qed.
Lemma ascii_folds cs : Forall (Forall ascii_word) cs -> Forall ascii_word (folds cs).
Proof. intro H. unfold folds. apply Forall_forall. intros w I. apply filter_In in I. destruct I as [I _]. apply in_concat in I. destruct I as (l & L & W). rewrite Forall_forall in H. specialize (H l L). rewrite Forall_forall in H. auto. Qed.
Lemma ascii_format {num} (show : num -> bytes) fold q : ascii_word q -> forall v, ascii show v -> forall depth more k, ascii_word k -> Forall (Forall ascii_word) (format show fold q depth more k v).
Proof.
  intros Q v SH.
  assert (KEY : forall (depth : nat) (k : bytes), ascii_word k -> Forall ascii_word (indent ([] : line) (depth * 2) ++ match k with [] => [] | _ => [q ++ k ++ q ++ str ": "] end)).
  { intros depth k K. apply Forall_app. split; [apply ascii_indent|]. destruct k; [constructor|]. constructor; [|constructor]. repeat (apply Forall_app; split); auto. apply ascii_str. reflexivity. }
  assert (CLOSE : forall (more : bool) w, ascii_word w -> Forall ascii_word ([w] ++ if more then [str ", "] else [])).
  { intros more w H. constructor; [exact H|]. destruct more; constructor; [apply ascii_str; reflexivity|constructor]. }
  assert (BODY : forall (depth : nat) (more : bool) (k o c : bytes) (cs : list line), ascii_word k -> ascii_word o -> ascii_word c -> Forall (Forall ascii_word) cs ->
    Forall (Forall ascii_word) (if fold && foldable cs then [(indent ([] : line) (depth * 2) ++ match k with [] => [] | _ => [q ++ k ++ q ++ str ": "] end) ++ [o] ++ folds cs ++ [c] ++ (if more then [str ", "] else [])]
                else [(indent ([] : line) (depth * 2) ++ match k with [] => [] | _ => [q ++ k ++ q ++ str ": "] end) ++ [o]] ++ cs ++ [indent ([] : line) (depth * 2) ++ [c] ++ (if more then [str ", "] else [])])).
  { intros depth more k o c cs K O C F. destruct (fold && foldable cs).
    - constructor; [|constructor]. apply Forall_app. split; [apply KEY; exact K|]. constructor; [exact O|]. apply Forall_app. split; [apply ascii_folds; exact F|]. apply CLOSE. exact C.
    - constructor; [apply Forall_app; split; [apply KEY; exact K|constructor; [exact O|constructor]]|]. apply Forall_app. split; [exact F|]. constructor; [|constructor]. apply Forall_app. split; [apply ascii_indent|apply CLOSE; exact C]. }
  induction v as [| |b|x|s|s|l IH|l IH] using value_deep; intros depth more k K; inversion SH; subst; cbn [format];
    try (constructor; [|constructor]; apply Forall_app; split; [apply KEY; exact K|]; apply CLOSE; cbn [format_value]).
  - apply ascii_str. reflexivity.
  - destruct b; apply ascii_str; reflexivity.
  - assumption.
  - repeat (apply Forall_app; split); assumption.
  - repeat (apply Forall_app; split); try assumption; apply ascii_str; reflexivity.
  - rename H0 into F. apply BODY; [exact K|apply ascii_str; reflexivity|apply ascii_str; reflexivity|]. clear SH. induction IH as [|v l Hv IHF IHl]; [constructor|]. apply Forall_app. split; [|apply IHl; exact (Forall_inv_tail F)].
    apply (Hv (Forall_inv F)). constructor.
  - rename H0 into F. apply BODY; [exact K|apply ascii_str; reflexivity|apply ascii_str; reflexivity|]. clear SH. induction IH as [|(k', v) l Hv IHF IHl]; [constructor|]. apply Forall_app. destruct (Forall_inv F) as [F1 F2]. split; [|apply IHl; exact (Forall_inv_tail F)].
    apply (Hv F2). exact F1.
Qed.
Lemma ascii_quotes ls : Forall (Forall ascii_word) ls -> Forall (Forall ascii_word) (in_quotes ls).
Proof.
  assert (Q : ascii_word [34]) by (apply ascii_str; reflexivity).
  assert (C : forall ls, Forall (Forall ascii_word) ls -> Forall (Forall ascii_word) (close_quote ls)).
  { intros l. induction 1 as [|x l H F IH]; [constructor|]. destruct l as [|y l]; [constructor; [apply Forall_app; split; [exact H|constructor; [exact Q|constructor]]|constructor]|]. rewrite close_quote_cons. constructor; [exact H|exact IH]. }
  intro H. destruct H as [|l ls H F]; [constructor|]. apply C. constructor; [constructor; [exact Q|exact H]|exact F].
Qed.
Lemma ascii_dump {num} (ev : bytes -> option num) show refused fold q qd s v : literal_quote q qd -> tree_of ev s = Done v [] -> ascii show v -> exists ls, dump ev show refused fold q s = Some ls.
Proof.
  intros Q T H. destruct (quote_blank q qd Q) as [B QD]. unfold dump. rewrite T, B. unfold pasted.
  assert (F : Forall (Forall ascii_word) (in_quotes (format show fold q 0 false [] v))).
  { apply ascii_quotes. apply ascii_format; [|exact H|constructor]. destruct Q as [[-> _]|[-> _]]; apply ascii_str; reflexivity. }
  destruct (ascii_lines _ F) as (m & ->). apply ascii_continued. exact F.
Qed.

(** ** the failure *)
Lemma failure A show refused fold q qd first columns e a ve va out : literal_quote q qd -> tree_of (evaluate A) e = Done ve [] -> tree_of (evaluate A) a = Done va [] -> copyable A show qd ve -> copyable A show qd va ->
  (exists we wa, width e = Some we /\ width a = Some wa /\ 16 <= we /\ 16 <= wa)%nat -> print_json (evaluate A) show refused fold q first columns e a = Some out ->
  exists x y te ta, out = first ++ str "expect> " ++ x ++ str "actual> " ++ y /\ c_value x = Some te /\ c_value y = Some ta /\ tree_of (evaluate A) te = Done ve [] /\ tree_of (evaluate A) ta = Done va [].
Proof.
  intros Q Te Ta Ce Ca (we & wa & We & Wa & Le & La) P. unfold print_json in P. rewrite We, Wa in P. apply Nat.ltb_ge in Le, La. rewrite Le, La in P. destruct (quote_blank q qd Q) as [B QD]. rewrite B in P. cbn [orb negb] in P.
  destruct (dump (evaluate A) show refused fold q e) as [el|] eqn:De; [|discriminate]. destruct (dump (evaluate A) show refused fold q a) as [al|] eqn:Da; [|discriminate]. inversion P. subst out.
  destruct (literal_parses A show refused fold q qd e ve 8 el Q Te Ce De) as (te & E1 & E2). destruct (literal_parses A show refused fold q qd a va 8 al Q Ta Ca Da) as (ta & F1 & F2).
  exists (printl (hang 8 el)), (printl (hang 8 al)), te, ta. repeat split; auto. 
Qed.
Lemma failure_short {num} (ev : bytes -> option num) show refused fold q first columns e a we wa : width e = Some we -> width a = Some wa -> (we < 16 \/ wa < 16)%nat -> print_json ev show refused fold q first columns e a = Some first.
Proof. intros E A H. unfold print_json. rewrite E, A. replace ((we <? 16)%nat || (wa <? 16)%nat) with true; [reflexivity|]. symmetry. apply orb_true_iff. destruct H as [H|H]; apply Nat.ltb_lt in H; auto. Qed.
Lemma failure_columns {num} (ev : bytes -> option num) show refused fold first columns e a ve va we wa : width e = Some we -> width a = Some wa -> (16 <= we)%nat -> (16 <= wa)%nat ->
  tree_of ev e = Done ve [] -> tree_of ev a = Done va [] -> print_json ev show refused fold [] first columns e a = Some (first ++ columns).
Proof. intros E A L1 L2 T1 T2. unfold print_json, wellformed. rewrite E, A, T1, T2. apply Nat.ltb_ge in L1, L2. rewrite L1, L2. reflexivity. Qed.

Lemma failure_malformed {num} (ev : bytes -> option num) show refused fold q first columns e a we wa : width e = Some we -> width a = Some wa -> (16 <= we)%nat -> (16 <= wa)%nat -> tree_of ev e = Fails \/ tree_of ev a = Fails ->
  forall el al, dump ev show refused fold q e = Some el -> dump ev show refused fold q a = Some al ->
  print_json ev show refused fold q first columns e a = Some (first ++ str "expect> " ++ printl (hang 8 el) ++ str "actual> " ++ printl (hang 8 al)) /\
  (tree_of ev e = Fails -> printl (hang 8 el) = text (refused e) ++ [10]) /\ (tree_of ev a = Fails -> printl (hang 8 al) = text (refused a) ++ [10]).
Proof.
  intros E A L1 L2 T el al De Da. split.
  - unfold print_json. rewrite E, A. apply Nat.ltb_ge in L1, L2. rewrite L1, L2. cbn [orb].
    assert (W : wellformed ev e && wellformed ev a = false) by (unfold wellformed; destruct T as [-> | ->]; [reflexivity|apply andb_false_r]).
    rewrite W. cbn [negb]. rewrite orb_true_r, De, Da. reflexivity.
  - unfold dump in De, Da. split; intro F; rewrite F in *; [injection De as <-|injection Da as <-]; cbn; apply app_nil_r.
Qed.
