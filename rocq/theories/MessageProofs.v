(** Proofs: the line that reports a failed check. *)
From Coq Require Import List NArith Bool Arith Lia.
From Verif Require Import Base LineModel LineSpec LineProofs LineProofs2 FilterModel ListingModel ListingSpec ListingProofs JunitModel JunitSpec JunitProofs StrdiffSpec StrdiffProofs MessageModel MessageSpec.
Import ListNotations.
Local Open Scope N_scope.

(** ** ink *)
Lemma ink_app : forall a st b, ink st (a ++ b) = ink st a ++ ink (behind_line st a) b.
Proof. induction a as [|w a IH]; intros st b; [reflexivity|]. cbn [app ink behind_line]. destruct (is_style w); rewrite IH; [reflexivity|]. rewrite app_assoc. reflexivity. Qed.
Lemma behind_app : forall a st b, behind_line st (a ++ b) = behind_line (behind_line st a) b.
Proof. induction a as [|w a IH]; intros st b; [reflexivity|]. cbn [app behind_line]. apply IH. Qed.
Lemma ink_text : forall l st, map snd (ink st l) = spoken l.
Proof. induction l as [|w l IH]; intros st; [reflexivity|]. cbn [ink spoken]. destruct (is_style w); [apply IH|]. rewrite map_app, IH, map_map. cbn. rewrite map_id. reflexivity. Qed.
(** a line that shows [o] and leaves the styles as they were *)
Definition leaves (st : styles) (l : line) (o : list (styles * byte)) : Prop := ink st l = o /\ behind_line st l = st.
Lemma leaves_nil : forall st, leaves st [] [].
Proof. split; reflexivity. Qed.
Lemma leaves_app : forall st a b x y, leaves st a x -> leaves st b y -> leaves st (a ++ b) (x ++ y).
Proof. intros st a b x y (A & B) (C & D). split; [rewrite ink_app, A, B, C; reflexivity|rewrite behind_app, B, D; reflexivity]. Qed.
Lemma leaves_word : forall st w, is_style w = false -> leaves st [w] (letters st w).
Proof. intros st w H. split; cbn [ink behind_line]; rewrite H; [apply app_nil_r|reflexivity]. Qed.
Definition colour (st : styles) : Prop := st = [] \/ st = green \/ st = cyan \/ st = red.
Lemma leaves_delta : forall st w, colour st -> is_style w = false -> leaves st (delta w dark_gray) (grayed st w).
Proof.
  intros st w C H. unfold delta. split.
  - cbn [ink]. change (is_style ([27; 123; 43] ++ dark_gray ++ [125])) with true. cbv iota. cbn [ink]. rewrite H. change (is_style ([27; 123; 45] ++ dark_gray ++ [125])) with true. cbv iota. cbn [ink].
    rewrite app_nil_r. unfold grayed, letters. destruct C as [->|[->|[->| ->]]]; reflexivity.
  - cbn [behind_line]. rewrite H. destruct C as [->|[->|[->| ->]]]; reflexivity.
Qed.
Lemma leaves_gray : forall st w, colour st -> is_style w = false -> leaves st (gray w) (grayed st w).
Proof. intros st w C H. unfold gray. destruct w; [apply leaves_nil|]. apply leaves_delta; assumption. Qed.
Lemma leaves_brush : forall s st l, restyle ([27; 123] ++ s ++ [125]) [] = st -> leaves [] (brush s l) (ink st l).
Proof.
  intros s st l R. unfold brush. assert (R2 : is_style ([27; 123] ++ s ++ [125]) = true) by reflexivity. split.
  - cbn [ink]. rewrite R2, R. rewrite ink_app. cbn. apply app_nil_r.
  - cbn [behind_line]. rewrite R2, R, behind_app. reflexivity.
Qed.
Lemma leaves_printf : forall w, is_style w = false -> leaves [] (printf_words dark_gray w) (grayed [] w).
Proof.
  intros w H. unfold printf_words. split; cbn [ink behind_line]; rewrite H.
  - change (is_style ([27; 123] ++ dark_gray ++ [125])) with true. cbv iota. cbn. apply app_nil_r.
  - reflexivity.
Qed.
Lemma calm_style : forall w, calm w -> is_style w = false.
Proof. intros [|c [|d w]] (H & _); try reflexivity. cbn. destruct (N.eqb_spec c 27) as [->|]; [exfalso; apply H; left; reflexivity|reflexivity]. Qed.
Lemma spelled_in : forall w c, In c (spelled w) -> In c w \/ c = 92 \/ c = 110 \/ c = 114 \/ c = 116.
Proof.
  induction w as [|b w IH]; intros c H; [left; exact H|]. rewrite spelled_cons in H. apply in_app_iff in H. destruct H as [H|H].
  - destruct (b =? 10); [cbn in H; intuition|]. destruct (b =? 13); [cbn in H; intuition|]. destruct (b =? 9); [cbn in H; intuition|]. destruct (b =? 0); [destruct H|]. destruct H as [->|[]]. left. left. reflexivity.
  - destruct (IH c H) as [K|K]; [left; right; exact K|right; exact K].
Qed.
Lemma spelled_no0 : forall w, ~ In 0 (spelled w).
Proof.
  induction w as [|b w IH]; [intros []|]. rewrite spelled_cons. intros H. apply in_app_iff in H. destruct H as [H|H]; [|exact (IH H)].
  destruct (b =? 10); [cbn in H; intuition discriminate|]. destruct (b =? 13); [cbn in H; intuition discriminate|]. destruct (b =? 9); [cbn in H; intuition discriminate|]. destruct (N.eqb_spec b 0); [destruct H|]. destruct H as [K|[]]. congruence.
Qed.
Lemma calm_spelled : forall w, calm w -> calm (spelled w).
Proof. intros w (H & K). split; [|apply spelled_no0]. intros Q. destruct (spelled_in _ _ Q) as [Z|Z]; [exact (H Z)|intuition discriminate]. Qed.
Lemma spelled_nonempty : forall w, w <> [] -> ~ In 0 w -> spelled w <> [].
Proof.
  intros [|c w] H K; [congruence|]. rewrite spelled_cons. destruct (c =? 10); [discriminate|]. destruct (c =? 13); [discriminate|]. destruct (c =? 9); [discriminate|]. destruct (N.eqb_spec c 0); [|discriminate].
  exfalso. apply K. left. auto.
Qed.
Lemma calm_app : forall a b, calm a -> calm b -> calm (a ++ b).
Proof. intros a b (A & B) (C & D). split; intros H; apply in_app_iff in H; intuition. Qed.

Lemma no_esc : forall w, ~ In 27 w -> is_style w = false.
Proof. intros [|c [|d w]] H; try reflexivity. cbn. destruct (N.eqb_spec c 27) as [->|]; [exfalso; apply H; left; reflexivity|reflexivity]. Qed.

(** ** gray quotes *)
Definition has_quotes (s : bytes) : bool := match s with c :: _ => ((c =? 34) || (c =? 39)) && (last s 0 =? c) | [] => false end.
Lemma quote_mid : forall w cs i h m t, Forall is_char cs -> (0 < i)%nat -> (i + list_sum (map cellw cs) <= w - 1)%nat ->
  quote_cells w i h m t cs = Some ((i + list_sum (map cellw cs))%nat, h, m ++ concat cs, t).
Proof.
  intros w. induction cs as [|c cs IH]; intros i h m t F I L.
  - cbn [quote_cells concat]. change (list_sum (map cellw [])) with 0%nat. rewrite Nat.add_0_r, app_nil_r. reflexivity.
  - inversion F as [|? ? C F']; subst. cbn [quote_cells]. rewrite (width_char c C). change (list_sum (map cellw (c :: cs))) with (cellw c + list_sum (map cellw cs))%nat in *.
    assert (1 <= cellw c)%nat by (destruct c as [|? [|? ?]]; cbn; lia).
    destruct (Nat.eqb_spec i 0); [lia|]. destruct (Nat.eqb_spec i (w - 1)); [lia|]. rewrite IH by (try assumption; lia). rewrite Nat.add_assoc. cbn [concat]. rewrite app_assoc. reflexivity.
Qed.
Lemma quote_cells_app : forall w a b i h m t i' h' m' t', quote_cells w i h m t a = Some (i', h', m', t') -> quote_cells w i h m t (a ++ b) = quote_cells w i' h' m' t' b.
Proof.
  intros w. induction a as [|c a IH]; intros b i h m t i' h' m' t' H; [inversion H; reflexivity|]. cbn [quote_cells app] in *. destruct (width c) as [k|]; [|discriminate].
  destruct (i =? 0)%nat; [eapply IH; exact H|]. destruct (i =? w - 1)%nat; eapply IH; exact H.
Qed.
Lemma enclosed_word : forall q w, w <> [] -> is_style w = false -> line_enclosed q [w] = Some (match w with c :: _ => (c =? q) && (last w 0 =? q) | [] => false end).
Proof. intros q [|c w] H S1; [congruence|]. unfold line_enclosed. cbn [enclosed_loop]. rewrite isctrl_style, S1. reflexivity. Qed.
Lemma enclosed_cut : forall q a b, a <> [] -> b <> [] -> is_style a = false -> is_style b = false ->
  line_enclosed q ([a] ++ delta (str "...") dark_gray ++ [b]) = Some (match a with c :: _ => (c =? q) && (last b 0 =? q) | [] => false end).
Proof.
  intros q [|c a] b H K S1 S2; [congruence|]. unfold line_enclosed. cbn [app delta enclosed_loop]. rewrite !isctrl_style, S1, S2. destruct b as [|d b]; [congruence|]. reflexivity.
Qed.
Lemma quotes_bool : forall c l : N, ((c =? 34) && (l =? 34)) || ((c =? 39) && (l =? 39)) = ((c =? 34) || (c =? 39)) && (l =? c).
Proof. intros c l. destruct (N.eqb_spec c 34) as [->|]; [cbn; apply orb_false_r|]. destruct (N.eqb_spec c 39) as [->|]; reflexivity. Qed.
Lemma quote_first : forall cs c w, concat cs = c :: w -> Forall is_char cs -> c < 192 -> exists r, cs = [c] :: r.
Proof.
  intros [|x cs] c w H F L; [discriminate|]. inversion F as [|? ? (a & r & E & B & K) F']; subst. cbn in H. inversion H; subst a. exists cs. f_equal.
  unfold lead in K. destruct (N.ltb_spec c 192); [|lia]. destruct r; [reflexivity|discriminate].
Qed.
Lemma good_is : forall cs, Forall good_char cs -> Forall is_char cs.
Proof. intros cs. apply Forall_impl. intros c (H & _). exact H. Qed.
Lemma last_app_ne : forall (a b : bytes) d, b <> [] -> last (a ++ b) d = last b d.
Proof. intros a b d H. destruct (exists_last H) as (r & x & ->). rewrite app_assoc, !last_last. reflexivity. Qed.
Lemma quote_last : forall cs, Forall good_char cs -> cs <> [] -> last (concat cs) 0 < 128 -> exists r, cs = r ++ [[last (concat cs) 0]].
Proof.
  intros cs F N1 L. destruct (exists_last N1) as (r & c & ->). exists r. f_equal. f_equal. apply Forall_app in F. destruct F as (_ & F). inversion F as [|? ? ((a & t & E & B & K) & Z & G) _]; subst c.
  rewrite concat_app in *. cbn [concat] in *. rewrite app_nil_r in *. subst x. rewrite last_app_ne in L |- * by discriminate. destruct t as [|b t]; [reflexivity|].
  exfalso. assert (P : Forall (fun b => 128 <= b) (a :: b :: t)) by (apply G; cbn; lia). rewrite Forall_forall in P. specialize (P (last (a :: b :: t) 0)).
  assert (In (last (a :: b :: t) 0) (a :: b :: t)) as I. { destruct (@exists_last _ (a :: b :: t)) as (y & z & Q); [discriminate|]. rewrite Q, last_last. apply in_app_iff. right. left. reflexivity. }
  specialize (P I). lia.
Qed.
Lemma sum_app : forall a b, list_sum (map cellw (a ++ b)) = (list_sum (map cellw a) + list_sum (map cellw b))%nat.
Proof. intros. rewrite map_app, list_sum_app. reflexivity. Qed.
Lemma letters_cons : forall st c w, letters st (c :: w) = (st, c) :: letters st w. Proof. reflexivity. Qed.
Lemma letters_app : forall st a b, letters st (a ++ b) = letters st a ++ letters st b. Proof. intros. apply map_app. Qed.
Lemma quoted_ends : forall p m q, snd q = snd p -> snd p = 34 \/ snd p = 39 -> quoted (p :: m ++ [q]) = dim p :: m ++ [dim q].
Proof.
  intros p m q E Q. unfold quoted. change (p :: m ++ [q]) with ((p :: m) ++ [q]). rewrite last_last, E, N.eqb_refl, rev_app_distr. cbn [rev app].
  replace ((snd p =? 34) || (snd p =? 39)) with true by (destruct Q as [->| ->]; reflexivity). cbn [andb]. rewrite rev_involutive. reflexivity.
Qed.
Lemma quoted_not : forall o s, map snd o = s -> has_quotes s = false -> quoted o = o.
Proof.
  intros [|p o] s E H; [reflexivity|]. subst s. cbn [map has_quotes] in H. unfold quoted. replace (snd (last (p :: o) p)) with (last (snd p :: map snd o) 0); [rewrite H; reflexivity|].
  clear H. change (snd p :: map snd o) with (map snd (p :: o)). destruct (@exists_last _ (p :: o)) as (y & z & Q); [discriminate|]. rewrite Q, map_app. cbn [map]. rewrite !last_last. reflexivity.
Qed.
Lemma gray_quote_word : forall st cs, colour st -> Forall good_char cs -> concat cs <> [] -> ~ In 27 (concat cs) ->
  exists l, gray_quote [concat cs] = Some l /\ leaves st l (quoted (letters st (concat cs))).
Proof.
  intros st cs Cs F N1 NE. pose proof (no_esc _ NE) as S1. pose proof (good_is cs F) as FC. unfold gray_quote. rewrite !enclosed_word by assumption.
  assert (LW : line_width [concat cs] = Some (list_sum (map cellw cs))).
  { cbn [line_width]. rewrite isctrl_style, S1, (width_chars cs FC). f_equal. lia. }
  pose proof (disperse_chars cs FC) as DC. rewrite LW. destruct (concat cs) as [|c w] eqn:Es; [congruence|].
  rewrite <- negb_orb, quotes_bool. destruct (((c =? 34) || (c =? 39)) && (last (c :: w) 0 =? c)) eqn:Q; cbn [negb].
  2:{ eexists. split; [reflexivity|]. rewrite (quoted_not _ (c :: w)); [apply leaves_word, S1| |exact Q]. unfold letters. rewrite map_map. cbn [snd]. apply map_id. }
  apply andb_true_iff in Q. destruct Q as (Q1 & Q2). apply N.eqb_eq in Q2. apply orb_true_iff in Q1. rewrite !N.eqb_eq in Q1.
  assert (CB : c < 128) by lia. destruct (quote_first cs c w) as (r & Er); [exact Es|exact FC|lia|].
  cbn [quote_words]. rewrite isctrl_style, S1, DC.
  assert (SC : is_style [c] = false) by reflexivity.
  destruct r as [|x r].
  - subst cs. cbn in Es. inversion Es; subst w. cbn [quote_cells]. assert (W1 : width [c] = Some 1%nat) by (apply (width_char [c]); apply char1; lia). rewrite W1. cbn [Nat.eqb app option_map gray]. eexists. split; [reflexivity|]. rewrite app_nil_r.
    cbn [concat app letters map]. unfold quoted. cbn [last snd rev]. rewrite N.eqb_refl. replace ((c =? 34) || (c =? 39)) with true by (symmetry; destruct Q1 as [->| ->]; reflexivity). cbn [andb].
    apply (leaves_delta st [c]); assumption.
  - assert (NR : x :: r <> []) by discriminate. assert (Fr : Forall good_char (x :: r)) by (rewrite Er in F; inversion F; assumption).
    assert (WE : w = concat (x :: r)) by (rewrite Er in Es; cbn [concat app] in Es; inversion Es; reflexivity).
    assert (NW : concat (x :: r) <> []). { inversion Fr as [|? ? ((a & t & E & _) & _) _]; subst x. cbn. discriminate. }
    assert (LC : last (concat (x :: r)) 0 = c). { rewrite <- Q2, WE. symmetry. apply (last_app_ne [c]). exact NW. }
    destruct (quote_last (x :: r) Fr NR) as (m & Em); [rewrite LC; lia|]. rewrite LC in Em. rewrite Em in *. clear x r Em NR.
    assert (Fm : Forall is_char m) by (apply Forall_app in Fr; destruct Fr; apply good_is; assumption).
    assert (W1 : width [c] = Some 1%nat) by (apply (width_char [c]); apply char1; lia).
    rewrite Er. set (W := list_sum (map cellw ([c] :: m ++ [[c]]))).
    assert (EW : W = (1 + list_sum (map cellw m) + 1)%nat). { unfold W. change (list_sum (map cellw ([c] :: m ++ [[c]]))) with (1 + list_sum (map cellw (m ++ [[c]])))%nat. rewrite sum_app. change (list_sum (map cellw [[c]])) with 1%nat. lia. }
    cbn [quote_cells]. rewrite W1. cbn [Nat.eqb]. rewrite (quote_cells_app W m [[c]] _ _ _ _ (1 + list_sum (map cellw m))%nat [c] (concat m) []).
    2:{ rewrite quote_mid; [reflexivity|exact Fm|lia|lia]. }
    cbn [quote_cells]. rewrite W1. destruct (Nat.eqb_spec (1 + list_sum (map cellw m)) 0); [lia|]. destruct (Nat.eqb_spec (1 + list_sum (map cellw m)) (W - 1)); [|lia].
    cbn [app option_map]. eexists. split; [reflexivity|].
    replace (quoted (letters st (c :: w))) with (grayed st [c] ++ letters st (concat m) ++ grayed st [c] ++ []).
    + apply leaves_app; [apply leaves_gray; assumption|]. apply leaves_app; [|apply leaves_app; [apply leaves_gray; assumption|apply leaves_nil]].
      destruct (concat m) as [|y z] eqn:Ez; [apply leaves_nil|]. apply leaves_word, no_esc. rewrite <- Ez. intros K. apply NE. rewrite WE. right. rewrite concat_app. apply in_app_iff. left. exact K.
    + rewrite app_nil_r, WE, concat_app. cbn [concat app]. rewrite letters_cons, letters_app. change (letters st [c]) with [(st, c)]. rewrite (quoted_ends (st, c) (letters st (concat m)) (st, c)); [reflexivity|reflexivity|exact Q1].
Qed.
Lemma plain_no27 : forall w, Forall plain w -> ~ In 27 w.
Proof. intros w F H. rewrite Forall_forall in F. destruct (F _ H) as (_ & K & _). congruence. Qed.
Lemma plain_style : forall w, Forall plain w -> is_style w = false.
Proof. intros w F. apply no_esc, plain_no27, F. Qed.
Lemma plain_cells : forall w, Forall plain w -> Forall is_char (map (fun c => [c]) w).
Proof. intros w F. induction F as [|c w (A & B & C) F IH]; constructor; [apply char1; lia|exact IH]. Qed.
Lemma plain_good : forall w, Forall plain w -> Forall good_char (map (fun c => [c]) w).
Proof. intros w F. induction F as [|c w (A & B & C) F IH]; constructor; [|exact IH]. split; [apply char1; lia|]. split; [intros [H|[]]; congruence|cbn; lia]. Qed.
Lemma concat_single : forall w : bytes, concat (map (fun c => [c]) w) = w.
Proof. induction w as [|c w IH]; cbn; congruence. Qed.
Lemma sum_single : forall w : bytes, list_sum (map cellw (map (fun c => [c]) w)) = length w.
Proof. induction w as [|c w IH]; [reflexivity|]. cbn [map length]. change (list_sum (cellw [c] :: map cellw (map (fun c => [c]) w))) with (1 + list_sum (map cellw (map (fun c => [c]) w)))%nat. rewrite IH. reflexivity. Qed.
Lemma width1 : forall c, plain c -> width [c] = Some 1%nat.
Proof. intros c P. apply (plain_width [c]). constructor; [exact P|constructor]. Qed.
Lemma dots_plain : Forall plain (str "...").
Proof. repeat (apply Forall_cons; [repeat split; discriminate|]). constructor. Qed.
Lemma style_on : is_style ([27; 123; 43] ++ dark_gray ++ [125]) = true. Proof. reflexivity. Qed.
Lemma style_off : is_style ([27; 123; 45] ++ dark_gray ++ [125]) = true. Proof. reflexivity. Qed.
Lemma leaves_one : forall st w, Forall plain w -> leaves st (match w with [] => [] | _ => [w] end) (letters st w).
Proof. intros st [|c w] F; [apply leaves_nil|]. apply leaves_word, plain_style, F. Qed.
Lemma gray_quote_cut : forall st h t, colour st -> Forall plain h -> Forall plain t -> h <> [] -> t <> [] ->
  exists l, gray_quote ([h] ++ delta (str "...") dark_gray ++ [t]) = Some l /\ leaves st l (quoted (letters st h ++ grayed st (str "...") ++ letters st t)).
Proof.
  intros st h t Cs Fh Ft Nh Nt. pose proof (plain_style h Fh) as Sh. pose proof (plain_style t Ft) as St. unfold gray_quote. rewrite !enclosed_cut by assumption.
  destruct h as [|c h]; [congruence|]. rewrite <- negb_orb, quotes_bool.
  assert (LW : line_width ([c :: h] ++ delta (str "...") dark_gray ++ [t]) = Some (length (c :: h) + (3 + length t))%nat).
  { unfold delta. cbn [app line_width]. rewrite !isctrl_style, Sh, St. change (27 :: 123 :: 43 :: dark_gray ++ [125]) with ([27; 123; 43] ++ dark_gray ++ [125]). change (27 :: 123 :: 45 :: dark_gray ++ [125]) with ([27; 123; 45] ++ dark_gray ++ [125]). rewrite style_on, style_off, (plain_style _ dots_plain).
    rewrite (plain_width _ Fh), (plain_width _ Ft), (plain_width _ dots_plain). f_equal. change (length (str "...")) with 3%nat; cbn [length]. lia. }
  destruct (((c =? 34) || (c =? 39)) && (last t 0 =? c)) eqn:Q; cbn [negb].
  - apply andb_true_iff in Q. destruct Q as (Q1 & Q2). apply N.eqb_eq in Q2. apply orb_true_iff in Q1. rewrite !N.eqb_eq in Q1.
    destruct (exists_last Nt) as (t' & d & ->). rewrite last_last in Q2. subst d. inversion Fh as [|? ? Pc Fh']; subst. apply Forall_app in Ft. destruct Ft as (Ft & _).
    rewrite LW. set (W := (length (c :: h) + (3 + length (t' ++ [c])))%nat). assert (EW : W = (length h + length t' + 5)%nat) by (unfold W; rewrite app_length; cbn; lia).
    unfold delta. cbn [app quote_words]. rewrite !isctrl_style, Sh, St. change (27 :: 123 :: 43 :: dark_gray ++ [125]) with ([27; 123; 43] ++ dark_gray ++ [125]). change (27 :: 123 :: 45 :: dark_gray ++ [125]) with ([27; 123; 45] ++ dark_gray ++ [125]). rewrite style_on, style_off, (plain_style _ dots_plain).
    rewrite (plain_disperse (c :: h)) by assumption. cbn [map quote_cells Nat.eqb]. rewrite (width1 c Pc). rewrite quote_mid; [|apply plain_cells; assumption|lia|rewrite sum_single; lia].
    rewrite sum_single, concat_single. rewrite (plain_disperse _ dots_plain). rewrite quote_mid; [|apply plain_cells, dots_plain|lia|rewrite sum_single; change (length (str "...")) with 3%nat; cbn [length]; lia].
    rewrite sum_single, concat_single. rewrite plain_disperse by (apply Forall_app; split; [exact Ft|constructor; [exact Pc|constructor]]). rewrite map_app. cbn [map].
    set (i := (0 + 1 + length h + length (str "..."))%nat). assert (Ei : i = (length h + 4)%nat) by (unfold i; change (length (str "...")) with 3%nat; cbn [length]; lia).
    rewrite (quote_cells_app W _ _ _ _ _ _ (i + length t')%nat [] t' []).
    2:{ rewrite quote_mid; [rewrite sum_single, concat_single; reflexivity|apply plain_cells; assumption|lia|rewrite sum_single; lia]. }
    cbn [quote_cells]. rewrite (width1 c Pc). destruct (Nat.eqb_spec (i + length t') 0); [lia|]. destruct (Nat.eqb_spec (i + length t') (W - 1)); [|lia].
    cbn [app option_map]. eexists. split; [reflexivity|].
    replace (quoted (letters st (c :: h) ++ grayed st (str "...") ++ letters st (t' ++ [c]))) with (grayed st [c] ++ letters st h ++ grayed st (str "...") ++ letters st t' ++ grayed st [c]).
    + change ([27; 123; 43] ++ dark_gray ++ [125]) with ([27; 123; 43] ++ dark_gray ++ [125]).
      match goal with |- leaves _ ?l _ => replace l with (gray [c] ++ (match h with [] => [] | _ => [h] end) ++ delta (str "...") dark_gray ++ (match t' with [] => [] | _ => [t'] end) ++ gray [c]) end.
      * apply leaves_app; [apply leaves_gray; [exact Cs|reflexivity]|]. apply leaves_app; [apply leaves_one; assumption|]. apply leaves_app; [apply leaves_delta; [exact Cs|reflexivity]|]. apply leaves_app; [apply leaves_one; assumption|apply leaves_gray; [exact Cs|reflexivity]].
      * unfold delta, gray. cbn [app]. destruct h, t'; cbn [app]; rewrite ?app_nil_r; reflexivity.
    + rewrite letters_cons, letters_app. change (letters st [c]) with [(st, c)].
      replace (((st, c) :: letters st h) ++ grayed st (str "...") ++ letters st t' ++ [(st, c)]) with ((st, c) :: (letters st h ++ grayed st (str "...") ++ letters st t') ++ [(st, c)]) by (cbn [app]; rewrite <- !app_assoc; reflexivity).
      rewrite quoted_ends; [|reflexivity|exact Q1]. cbn [app]. rewrite <- !app_assoc. reflexivity.
  - eexists. split; [reflexivity|]. rewrite (quoted_not _ ((c :: h) ++ str "..." ++ t)).
    + apply leaves_app; [apply leaves_word, Sh|]. apply leaves_app; [apply leaves_delta; [exact Cs|reflexivity]|apply leaves_word, St].
    + unfold grayed, letters. rewrite !map_app, !map_map. cbn [snd]. rewrite !map_id. reflexivity.
    + cbn [has_quotes app]. change (c :: h ++ str "..." ++ t) with ((c :: h) ++ str "..." ++ t). rewrite app_assoc, last_app_ne by exact Nt. exact Q.
Qed.

(** ** abbreviated expressions *)
Lemma fits_plain : forall W s, Forall plain s -> (fits W s <-> (length (spelled s) <= W)%nat).
Proof.
  intros W s F. pose proof (spelled_plain s F) as P. split.
  - intros (cs & E & G & L). pose proof (plain_width _ P) as A. rewrite E, (width_chars cs (good_is cs G)), <- E in A. inversion A. lia.
  - intros L. exists (map (fun c => [c]) (spelled s)). rewrite concat_single, sum_single. split; [reflexivity|]. split; [apply plain_good, P|exact L].
Qed.
Lemma abbreviate_word : forall W tail s, is_style s = false -> abbreviate W tail [s] =
  match line_width [spelled s] with Some w => if (w <=? W)%nat then Some [spelled s] else abbr_words (W - 3 - tail) (w - tail) 0 [spelled s] | None => None end.
Proof. intros W tail s H. unfold abbreviate. cbn [map]. rewrite isctrl_style, H, escape_spelled. reflexivity. Qed.
Lemma good_line_width : forall s cs, is_style s = false -> s = concat cs -> Forall good_char cs -> line_width [s] = Some (list_sum (map cellw cs)).
Proof. intros s cs H E G. cbn [line_width]. rewrite isctrl_style, H, E, (width_chars cs (good_is cs G)). f_equal. lia. Qed.
Lemma abbreviate_short : forall W tail s, calm s -> fits W s -> abbreviate W tail [s] = Some [spelled s].
Proof.
  intros W tail s C (cs & E & G & L). rewrite abbreviate_word by (apply calm_style, C). rewrite (good_line_width _ cs); [|apply calm_style, calm_spelled, C|exact E|exact G].
  destruct (Nat.leb_spec (list_sum (map cellw cs)) W); [reflexivity|lia].
Qed.
Lemma abbreviate_long : forall W tail s, Forall plain s -> ~ fits W s -> (4 + tail <= W)%nat -> (1 <= tail)%nat ->
  abbreviate W tail [s] = Some ([firstn (W - 3 - tail) (spelled s)] ++ delta (str "...") dark_gray ++ [skipn (length (spelled s) - tail) (spelled s)]) /\
  firstn (W - 3 - tail) (spelled s) <> [] /\ skipn (length (spelled s) - tail) (spelled s) <> [].
Proof.
  intros W tail s F NF L T. rewrite fits_plain in NF by exact F. pose proof (spelled_plain s F) as P. rewrite abbreviate_word by (apply plain_style, F).
  assert (N1 : firstn (W - 3 - tail) (spelled s) <> []) by (intros H; apply (f_equal (@length N)) in H; rewrite firstn_length in H; cbn in H; lia).
  assert (N2 : skipn (length (spelled s) - tail) (spelled s) <> []) by (intros H; apply (f_equal (@length N)) in H; rewrite skipn_length in H; cbn in H; lia).
  split; [|split; assumption].
  cbn [line_width]. rewrite isctrl_style, (plain_style _ P), (plain_width _ P). cbv iota beta. rewrite Nat.add_0_r. destruct (Nat.leb_spec (length (spelled s)) W); [lia|].
  cbn [abbr_words]. rewrite isctrl_style, (plain_style _ P), (plain_disperse _ P). rewrite abbr_cells_ok; [|lia|exact P]. rewrite !Nat.sub_0_r. cbn [app option_map].
  unfold dots_at. replace ((0 <=? W - 3 - tail)%nat && (W - 3 - tail <? 0 + length (spelled s))%nat) with true.
  - destruct (firstn (W - 3 - tail) (spelled s)) as [|a b] eqn:E1; [congruence|]. destruct (skipn (length (spelled s) - tail) (spelled s)) as [|x y] eqn:E2; [congruence|]. reflexivity.
  - symmetry. apply andb_true_intro. split; [apply Nat.leb_le; lia|apply Nat.ltb_lt; lia].
Qed.
Lemma fits_dec : forall W s, fits W s \/ Forall plain s -> fits W s \/ (~ fits W s /\ Forall plain s).
Proof. intros W s [H|H]; [left; exact H|]. destruct (Nat.le_gt_cases (length (spelled s)) W); [left; apply fits_plain; assumption|right; split; [rewrite fits_plain by exact H; lia|exact H]]. Qed.
Lemma expression_ok : forall W style st s, wholesome W s -> (7 <= W)%nat -> colour st -> restyle ([27; 123] ++ style ++ [125]) [] = st ->
  exists l x, expression W style s = Some l /\ shown W 3 st s x /\ leaves [] l (quoted x).
Proof.
  intros W style st s (Ne & C & FP) LW Cs R. unfold expression. destruct (fits_dec W s FP) as [Ft|(NF & P)].
  - rewrite abbreviate_short by assumption. cbn [bind]. destruct Ft as (cs & E & G & L).
    destruct (gray_quote_word st cs Cs G) as (l & E1 & L1); [rewrite <- E; apply spelled_nonempty; [exact Ne|apply C]|rewrite <- E; apply calm_spelled, C|].
    rewrite E, E1. cbn [bind]. exists (brush style l), (letters st (spelled s)). split; [reflexivity|]. split; [split; [reflexivity|intros H; exfalso; apply H; exists cs; auto]|].
    rewrite E. destruct L1 as (A & B). rewrite <- A. apply leaves_brush, R.
  - destruct (abbreviate_long W 3 s P NF) as (A & N1 & N2); [lia|lia|]. rewrite A. cbn [bind].
    destruct (gray_quote_cut st (firstn (W - 3 - 3) (spelled s)) (skipn (length (spelled s) - 3) (spelled s)) Cs) as (l & E1 & (L1 & _)); [apply Forall_firstn', spelled_plain, P|apply Forall_skipn', spelled_plain, P|exact N1|exact N2|].
    rewrite E1. cbn [bind]. eexists (brush style l), _. split; [reflexivity|]. split; [split; [intros H; contradiction|reflexivity]|]. rewrite <- L1. apply leaves_brush, R.
Qed.
(** an expression without gray quotes *)
Lemma word_ok : forall W tail style st s, calm s -> fits W s \/ Forall plain s -> (4 + tail <= W)%nat -> (1 <= tail)%nat -> colour st -> restyle ([27; 123] ++ style ++ [125]) [] = st ->
  exists l x, option_map (brush style) (abbreviate W tail [s]) = Some l /\ shown W tail st s x /\ leaves [] l x.
Proof.
  intros W tail style st s C FP LW T Cs R. destruct (fits_dec W s FP) as [Ft|(NF & P)].
  - rewrite abbreviate_short by assumption. cbn [option_map]. eexists _, (letters st (spelled s)). split; [reflexivity|]. split; [split; [reflexivity|intros H; contradiction]|].
    replace (letters st (spelled s)) with (ink st [spelled s]); [apply leaves_brush, R|]. apply (leaves_word st), calm_style, calm_spelled, C.
  - destruct (abbreviate_long W tail s P NF LW T) as (A & N1 & N2). rewrite A. cbn [option_map]. eexists _, _. split; [reflexivity|]. split; [split; [intros H; contradiction|reflexivity]|].
    match goal with |- leaves _ (brush _ ?l) ?o => replace o with (ink st l); [apply leaves_brush, R|] end.
    apply (leaves_app st); [apply leaves_word, plain_style, Forall_firstn', spelled_plain, P|]. apply leaves_app; [apply leaves_delta; [exact Cs|reflexivity]|]. apply leaves_word, plain_style, Forall_skipn', spelled_plain, P.
Qed.
Lemma value_ok : forall W style st v, whole_value W v -> (6 <= W)%nat -> restyle ([27; 123] ++ style ++ [125]) [] = st ->
  exists l x, value W style v = Some l /\ shown_value W st v x /\ leaves [] l x.
Proof.
  intros W style st v (Pr & N0 & FP) LW R. unfold value. destruct (FP) as [(its & S1 & L)|P].
  - rewrite (abbreviate_fits W 3 v its S1 L). cbn [option_map]. eexists _, (ink st (escaped v)). split; [reflexivity|]. split; [|apply leaves_brush, R]. split; [reflexivity|].
    intros P L2. exfalso. destruct (escaped_text v P) as (_ & A). rewrite (line_width_spells _ _ S1) in A. inversion A. lia.
  - destruct (abbreviate_ok W 3 v P) as (l2 & E & T); [lia|]. rewrite E. cbn [option_map]. eexists _, (ink st l2). split; [reflexivity|]. split; [|apply leaves_brush, R]. split.
    + intros (its & S1 & L). rewrite (abbreviate_fits W 3 v its S1 L) in E. inversion E. reflexivity.
    + intros _ L2. rewrite ink_text, T. destruct (Nat.leb_spec (length (spelled (spoken v))) W); [lia|reflexivity].
Qed.
Lemma width_void : forall v, proper v -> exists w, line_width v = Some w /\ (w = 0%nat <-> void v).
Proof.
  intros v (its & S1). exists (columns its). split; [apply line_width_spells, S1|]. unfold void. rewrite (spoken_spells v its S1). unfold columns.
  assert (F : Forall is_char (cells its)).
  { clear - S1. induction S1 as [|w l its C S1 IH|cs l its C F S1 IH]; [constructor|exact IH|]. rewrite cells_app, cells_map. apply Forall_app. auto. }
  clear S1. destruct (cells its) as [|c cs]; [split; reflexivity|]. inversion F as [|? ? (a & r & E & _) _]; subst. split; [|intros H; discriminate].
  change (list_sum (map cellw ((a :: r) :: cs))) with (cellw (a :: r) + list_sum (map cellw cs))%nat. destruct r; cbn; lia.
Qed.

(** ** expressions that tell the value *)
Lemma h2_in_ok : forall a l, h2_in a l = true <-> In a l.
Proof. intros a l. unfold h2_in. rewrite existsb_exists. split; [intros (x & I & E); apply bytes_eqb_eq in E; subst; exact I|intros I; exists a; split; [exact I|apply bytes_eqb_eq; reflexivity]]. Qed.
Lemma same_words : (forall x, In x null_synonym <-> In x null_words) /\ (forall x, In x notnull_synonym <-> In x something_words) /\ (forall x, In x true_synonym <-> In x yes_words) /\ (forall x, In x false_synonym <-> In x no_words).
Proof. unfold null_synonym, null_words, notnull_synonym, something_words, true_synonym, yes_words, false_synonym, no_words. cbn [In]. repeat split; intros H; repeat (destruct H as [H|H]; [rewrite <- H; tauto|]); destruct H. Qed.
Lemma unenclose_ok : forall b, b <> [] -> exists u, unenclose 91 93 b = Some u /\ ((b = str "[" ++ u ++ str "]") \/ (u = b /\ ~ exists z, b = str "[" ++ z ++ str "]")).
Proof.
  intros [|c r] H; [congruence|]. unfold unenclose. destruct ((c =? 91) && (last (c :: r) 0 =? 93)) eqn:E.
  - apply andb_true_iff in E. rewrite !N.eqb_eq in E. destruct E as (-> & E). destruct r as [|x r]; [discriminate|]. eexists. split; [reflexivity|]. left. match goal with |- _ = str "[" ++ ?m ++ str "]" => change (str "[" ++ m ++ str "]") with (91 :: m ++ [93]) end. f_equal.
    assert (Nx : x :: r <> []) by discriminate. rewrite (app_removelast_last 0 Nx) at 1. f_equal. f_equal. exact E.
  - exists (c :: r). split; [reflexivity|]. right. split; [reflexivity|]. intros (z & Z). change (str "[" ++ z ++ str "]") with (91 :: z ++ [93]) in Z. rewrite Z in E. inversion Z; subst. change (91 :: z ++ [93]) with ((91 :: z) ++ [93]) in E. rewrite last_last in E. discriminate.
Qed.
Lemma synonym_ok : forall a b, spelled b <> [] -> exists r, is_synonym a b = Some r /\ (r = true <-> tells (spelled a) (spelled b)).
Proof.
  intros a b H. unfold is_synonym. rewrite !escape_spelled. destruct same_words as (W1 & W2 & W3 & W4). set (x := spelled a). set (y := spelled b) in *. clearbody x y.
  destruct (bytes_eqb x y) eqn:E1; [apply bytes_eqb_eq in E1; subst y; exists true; split; [reflexivity|split; [intros _; constructor|reflexivity]]|].
  assert (WD : forall l l', (forall z, In z l <-> In z l') -> In l' [null_words; something_words; yes_words; no_words] -> h2_in x l && h2_in y l = true -> tells x y).
  { intros l l' W I E. apply andb_true_iff in E. rewrite !h2_in_ok, !W in E. destruct E. apply (t_words l'); assumption. }
  destruct (h2_in x null_synonym && h2_in y null_synonym) eqn:E2; [exists true; split; [reflexivity|split; [intros _; eapply WD; [exact W1|cbn; tauto|exact E2]|reflexivity]]|].
  destruct (h2_in x notnull_synonym && h2_in y notnull_synonym) eqn:E3; [exists true; split; [reflexivity|split; [intros _; eapply WD; [exact W2|cbn; tauto|exact E3]|reflexivity]]|].
  destruct (h2_in x true_synonym && h2_in y true_synonym) eqn:E4; [exists true; split; [reflexivity|split; [intros _; eapply WD; [exact W3|cbn; tauto|exact E4]|reflexivity]]|].
  destruct (h2_in x false_synonym && h2_in y false_synonym) eqn:E5; [exists true; split; [reflexivity|split; [intros _; eapply WD; [exact W4|cbn; tauto|exact E5]|reflexivity]]|].
  destruct (bytes_eqb x (str "Eq(" ++ y ++ str ")")) eqn:E6; [apply bytes_eqb_eq in E6; subst x; exists true; split; [reflexivity|split; [intros _; constructor|reflexivity]]|].
  destruct (unenclose_ok y H) as (u & U & D). rewrite U. eexists. split; [reflexivity|]. rewrite bytes_eqb_eq. split.
  - intros ->. destruct D as [D|(D & N1)]; [rewrite D; apply t_list|subst u; apply t_list_bare, N1].
  - intros T. assert (WN : forall l l', (forall z, In z l <-> In z l') -> In x l' -> In y l' -> h2_in x l && h2_in y l = true).
    { intros l l' W I J. apply andb_true_iff. rewrite !h2_in_ok, !W. auto. }
    destruct T as [x|l x y I J K|y|z|y N1].
    + rewrite (proj2 (bytes_eqb_eq x x) eq_refl) in E1. discriminate.
    + exfalso. cbn [In] in I. destruct I as [<-|[<-|[<-|[<-|[]]]]]; [rewrite (WN _ _ W1 J K) in E2|rewrite (WN _ _ W2 J K) in E3|rewrite (WN _ _ W3 J K) in E4|rewrite (WN _ _ W4 J K) in E5]; discriminate.
    + rewrite (proj2 (bytes_eqb_eq _ _) eq_refl) in E6. discriminate.
    + destruct D as [D|(-> & N1)]; [|exfalso; apply N1; exists z; reflexivity]. apply app_inv_head in D. apply app_inv_tail in D. subst. reflexivity.
    + destruct D as [D|(-> & _)]; [exfalso; apply N1; exists u; exact D|reflexivity].
Qed.
