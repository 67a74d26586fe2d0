From Coq Require Import List NArith Bool Arith Lia.
From Verif Require Import Base LineModel LineSpec LineProofs.
Import ListNotations.
Local Open Scope N_scope.

Lemma text_app : forall a b, text (a ++ b) = text a ++ text b. Proof. intros. unfold text. rewrite filter_app, concat_app. reflexivity. Qed.
Lemma text_brush : forall s l, text (brush s l) = text l.
Proof. intros s l. unfold brush. change (?x :: ?y) with ([x] ++ y). rewrite !text_app. unfold text at 1 3. cbn. rewrite app_nil_r. reflexivity. Qed.
Lemma text_printf : forall st s, isctrl s = false -> text (printf_words st s) = s.
Proof. intros st s C. unfold printf_words, text. cbn [filter app]. change (isctrl (27 :: 123 :: _)) with true. cbn [negb]. rewrite C. cbn. apply app_nil_r. Qed.
Lemma blanks_not_ctrl : forall k, isctrl (repeat 32 k) = false. Proof. intros [|k]; reflexivity. Qed.
Lemma text_blanks : forall k, text [repeat 32 k] = repeat 32 k. Proof. intros k. unfold text. cbn [filter]. rewrite blanks_not_ctrl. cbn. apply app_nil_r. Qed.

Lemma merge_rows_ok : forall step seq sw lw rw (a b : list line) n j (ps qs : list (bytes * nat)), isctrl seq = false -> length ps = n -> length qs = n ->
  (forall k, (k < n)%nat -> text (if (j + k <? length a)%nat then brush (str "reset") (nth (j + k) a []) else brush (str "reset") [repeat 32 lw]) = padded (nth k ps ([], 0%nat))) ->
  (forall k, (k < n)%nat -> text (if (j + k <? length b)%nat then brush (str "reset") (nth (j + k) b []) else brush (str "reset") [repeat 32 rw]) = padded (nth k qs ([], 0%nat))) ->
  (forall k, (k < n)%nat -> (j + k <? length a - 1)%nat = remains (skipn (S k) ps)) ->
  (forall k, (k < n)%nat -> (j + k <? length b - 1)%nat = remains (skipn (S k) qs)) ->
  map text (merge_rows step seq sw lw rw bar_more bar_last n j a b) =
  rows_text (if step then if (j =? 0)%nat then seq else repeat 32 (sw + 2) else []) (if step then repeat 32 (sw + 2) else []) ps qs.
Proof.
  intros step seq sw lw rw a b n. induction n as [|n IH]; intros j ps qs CS LP LQ TA TB RA RB.
  - destruct ps; [reflexivity|discriminate].
  - destruct ps as [|p ps]; [discriminate|]. destruct qs as [|q qs]; [discriminate|]. cbn [merge_rows map rows_text]. cbv zeta. f_equal.
    + pose proof (TA 0%nat) as TA0. pose proof (TB 0%nat) as TB0. pose proof (RA 0%nat) as RA0. pose proof (RB 0%nat) as RB0. rewrite Nat.add_0_r in TA0, TB0, RA0, RB0. cbn [nth skipn] in TA0, TB0, RA0, RB0.
      rewrite !text_app.
      match goal with |- context [text (if (j <? length a)%nat then ?x else ?y)] => replace (text (if (j <? length a)%nat then x else y)) with (padded p) by (symmetry; apply TA0; lia) end.
      match goal with |- context [text (if (j <? length b)%nat then ?x else ?y)] => replace (text (if (j <? length b)%nat then x else y)) with (padded q) by (symmetry; apply TB0; lia) end.
      rewrite RA0, RB0 by lia. rewrite !text_printf by (destruct (remains _); reflexivity). unfold row_text. f_equal.
      * destruct step; [|reflexivity]. destruct (j =? 0)%nat; [apply text_printf; auto|]. apply text_blanks.
      * f_equal. destruct (remains ps), (remains qs); reflexivity.
    + rewrite (IH (S j) ps qs); auto.
      * intros k K. specialize (TA (S k)). rewrite Nat.add_succ_r in TA. apply TA. lia.
      * intros k K. specialize (TB (S k)). rewrite Nat.add_succ_r in TB. apply TB. lia.
      * intros k K. specialize (RA (S k)). rewrite Nat.add_succ_r in RA. apply RA. lia.
      * intros k K. specialize (RB (S k)). rewrite Nat.add_succ_r in RB. apply RB. lia.
Qed.

(** the pieces of a broken line *)
Lemma cells_chars : forall l its, spells l its -> Forall is_char (cells its).
Proof. induction 1 as [|w l its C S IH|cs l its C F S IH]; [constructor|exact IH|]. rewrite cells_app, cells_map. apply Forall_app. auto. Qed.
Lemma cells_text : forall l its, spells l its -> concat (cells its) = [] -> cells its = [].
Proof. intros l its S E. pose proof (cells_chars l its S) as F. destruct (cells its) as [|c r]; auto. destruct (Forall_inv F) as (x & y & -> & _). discriminate. Qed.
Lemma break_pieces : forall W ls parts, Forall2 (filled W) ls parts -> needed W parts ->
  exists ps, length ps = length ls /\ concat (map fst ps) = concat (map (fun its => concat (cells its)) parts) /\ Forall (fun p => takes W (padded p)) ps /\
    (forall k, (k < length ls)%nat -> text (nth k ls []) = padded (nth k ps ([], 0%nat))) /\ (forall k, (k < length ls)%nat -> (k <? length ls - 1)%nat = remains (skipn (S k) ps)).
Proof.
  induction 1 as [|l its ls parts F FF IH]; intros NE.
  - exists []. split; auto. split; auto. split; [constructor|]. split; intros k K; cbn in K; lia.
  - destruct IH as (ps & L & C & FW & T & R); [destruct parts; [exact Logic.I|]; apply NE|].
    destruct (filled_width W l its F) as (_ & k & TX). rewrite <- text_spoken in TX. exists ((concat (cells its), k) :: ps). split; [cbn; auto|]. split; [cbn; rewrite C; reflexivity|]. split.
    + constructor; auto. unfold padded. cbn [fst snd]. destruct F as (body & k' & -> & S & E). 
      rewrite text_app, (text_spells _ _ S) in TX. assert (K : k = k').
      { assert (LE : length ((if (k' =? 0)%nat then [] else [repeat 32 k']) : line) = length ((if (k' =? 0)%nat then [] else [repeat 32 k']) : line)) by reflexivity. clear LE.
        apply app_inv_head in TX. destruct (k' =? 0)%nat eqn:K0; [apply Nat.eqb_eq in K0; destruct k; [auto|discriminate]|]. rewrite text_blanks in TX. apply (f_equal (@length byte)) in TX. rewrite !repeat_length in TX. auto. }
      subst k'. destruct (blanks_spells k) as (bi & Sb & Cb & Lb). destruct (blanks_chars k) as [Eb Fb]. rewrite <- Eb. rewrite <- concat_app. eexists. split; [reflexivity|]. split; [apply Forall_app; split; [apply (cells_chars body); auto|auto]|].
      rewrite map_app, list_sum_app. rewrite <- Lb. fold (columns its). fold (columns bi). rewrite Cb. auto.
    + split.
      * intros [|j] J; cbn [nth]; [exact TX|]. apply T. cbn in J. lia.
      * intros [|j] J.
        { cbn [skipn length]. destruct ls as [|l2 ls].
          - destruct ps; [reflexivity|discriminate].
          - cbn [length]. replace (0 <? S (S (length ls)) - 1)%nat with true by reflexivity. destruct parts as [|i2 parts]; [inversion FF|]. destruct NE as [FU NE]. unfold full in FU.
            unfold remains. rewrite C. cbn [map concat]. inversion FF as [|? ? ? ? F2 FF2]; subst. destruct F2 as (b2 & k2 & E2 & S2 & _). pose proof (cells_text _ _ S2) as CT.
            destruct (concat (cells i2)) as [|x y]; [rewrite (CT eq_refl) in FU; contradiction|reflexivity]. }
        { cbn [skipn length] in *. rewrite <- (R j) by lia. destruct (Nat.ltb_spec (S j) (S (length ls) - 1)), (Nat.ltb_spec j (length ls - 1)); auto; lia. }
Qed.
Lemma remains_app_blank : forall l m, remains (l ++ repeat ([] : bytes, m) 0) = remains l. Proof. intros. cbn. rewrite app_nil_r. reflexivity. Qed.
Lemma concat_empty : forall k (m : nat), concat (map fst (repeat ([] : bytes, m) k)) = []. Proof. induction k; intros; cbn; auto. Qed.
Lemma padded_blank : forall W, takes W (padded ([], W)).
Proof. intros W. unfold padded. cbn [fst snd app]. destruct (blanks_chars W) as [E F]. exists (map (fun c => [c]) (repeat 32 W)). split; auto. split; auto. rewrite map_map. clear. induction W; cbn; auto. Qed.
(** ... extended with blank pieces *)
Lemma pieces_extended : forall W ls ps n, (length ls <= n)%nat -> ls <> [] -> length ps = length ls -> Forall (fun p => takes W (padded p)) ps ->
  (forall k, (k < length ls)%nat -> text (nth k ls []) = padded (nth k ps ([], 0%nat))) -> (forall k, (k < length ls)%nat -> (k <? length ls - 1)%nat = remains (skipn (S k) ps)) ->
  exists qs, length qs = n /\ concat (map fst qs) = concat (map fst ps) /\ Forall (fun p => takes W (padded p)) qs /\
   (forall k, (k < n)%nat -> text (if (0 + k <? length ls)%nat then brush (str "reset") (nth (0 + k) ls []) else brush (str "reset") [repeat 32 W]) = padded (nth k qs ([], 0%nat))) /\
   (forall k, (k < n)%nat -> (0 + k <? length ls - 1)%nat = remains (skipn (S k) qs)).
Proof.
  intros W ls ps n LE NE LP FW T R. exists (ps ++ repeat ([], W) (n - length ls)). split; [rewrite app_length, repeat_length; lia|]. split; [rewrite map_app, concat_app, concat_empty, app_nil_r; auto|]. split; [|split].
  - apply Forall_app. split; auto. apply Forall_forall. intros x I. apply repeat_spec in I. subst. apply padded_blank.
  - intros k K. rewrite Nat.add_0_l. destruct (Nat.ltb_spec k (length ls)) as [B|B]; rewrite text_brush.
    + rewrite app_nth1 by lia. apply T. auto.
    + rewrite app_nth2 by lia. rewrite text_blanks. rewrite (nth_indep _ ([], 0%nat) ([], W)) by (rewrite repeat_length; lia). rewrite nth_repeat. reflexivity.
  - intros k K. rewrite Nat.add_0_l. unfold remains. rewrite skipn_app, map_app, concat_app. destruct (Nat.ltb_spec k (length ls)) as [B|B].
    + rewrite (R k B). unfold remains. replace (S k - length ps)%nat with 0%nat by lia. cbn [skipn]. rewrite concat_empty, app_nil_r. reflexivity.
    + rewrite skipn_all2 by lia. destruct (Nat.ltb_spec k (length ls - 1)) as [B2|B2]; [lia|]. cbn [map concat app].
      assert (E : concat (map fst (skipn (S k - length ps) (repeat ([] : bytes, W) (n - length ls)))) = []).
      { assert (G : forall m l, Forall (fun p : bytes * nat => fst p = []) l -> concat (map fst (skipn m l)) = []).
        { induction m as [|m IHm]; intros l Fl; cbn [skipn].
          - induction Fl as [|p l P Fl IHl]; auto. cbn. rewrite P, IHl. reflexivity.
          - destruct l; auto. apply IHm. apply (Forall_inv_tail Fl). }
        apply G. apply Forall_forall. intros x I. apply repeat_spec in I. subst. reflexivity. }
      rewrite E. reflexivity.
Qed.
Lemma char_le2 : forall c, (cellw c <= 2)%nat. Proof. intros [|a [|b r]]; cbn; lia. Qed.
Lemma parts_text : forall parts its, concat (map (tagged []) parts) = tagged [] its -> concat (map (fun i => concat (cells i)) parts) = concat (cells its).
Proof.
  intros parts its E. apply (f_equal (map snd)) in E. rewrite tagged_cells in E. rewrite <- E. rewrite concat_map, map_map. clear E. induction parts as [|p parts IH]; auto. cbn [map concat]. rewrite tagged_cells, concat_app, IH. reflexivity.
Qed.
Lemma proper_blanks : forall k, proper [repeat 32 k]. Proof. intros k. destruct (blanks_spells k) as (its & S & _). exists its. auto. Qed.
Lemma break_shown : forall W l, proper l -> (2 <= W)%nat -> exists a ps, line_break W l = Some a /\ a <> [] /\ length ps = length a /\ concat (map fst ps) = spoken l /\ Forall (fun p => takes W (padded p)) ps /\
  (forall k, (k < length a)%nat -> text (nth k a []) = padded (nth k ps ([], 0%nat))) /\ (forall k, (k < length a)%nat -> (k <? length a - 1)%nat = remains (skipn (S k) ps)).
Proof.
  intros W l (its & S) W2. destruct (break_ok W l its S) as (ls & parts & E & FF & TG & NE).
  { apply Forall_forall. intros c _. pose proof (char_le2 c). lia. }
  destruct (break_pieces W ls parts FF NE) as (ps & L & C & FW & T & R). exists ls, ps. split; auto. split.
  { unfold line_break in E. destruct (words_loop _ _ _ _ _) as [[x y]|]; [|discriminate]. destruct (pad_to W y); [|discriminate]. apply some_inj in E || (injection E as E). subst ls. destruct x; discriminate. }
  split; auto. split; [rewrite C, (parts_text parts its TG), (spoken_spells l its S); reflexivity|]. auto.
Qed.
Lemma rows_shown : forall (step : bool) (seq : bytes) sw lw rw l r, isctrl seq = false -> proper l -> proper r -> (2 <= lw)%nat -> (2 <= rw)%nat -> exists a b, line_break lw l = Some a /\ line_break rw r = Some b /\
  shows (if step then seq else []) (if step then repeat 32 (sw + 2) else []) lw rw (spoken l) (spoken r) (merge_rows step seq sw lw rw bar_more bar_last (Nat.max (length a) (length b)) 0 a b).
Proof.
  intros step seq sw lw rw l r CS Pl Pr Hl Hr. destruct (break_shown lw l Pl Hl) as (a & ps & E1 & N1 & L1 & C1 & F1 & T1 & R1). destruct (break_shown rw r Pr Hr) as (b & qs & E2 & N2 & L2 & C2 & F2 & T2 & R2).
  exists a, b. split; auto. split; auto.
  destruct (pieces_extended lw a ps (Nat.max (length a) (length b)) (Nat.le_max_l _ _) N1 L1 F1 T1 R1) as (ps' & LP & CP & FP & TP & RP).
  destruct (pieces_extended rw b qs (Nat.max (length a) (length b)) (Nat.le_max_r _ _) N2 L2 F2 T2 R2) as (qs' & LQ & CQ & FQ & TQ & RQ).
  exists ps', qs'. split; [congruence|]. split; [congruence|]. split; [congruence|]. split; auto. split; auto. rewrite <- (map_ext _ _ text_spoken). rewrite (merge_rows_ok step seq sw lw rw a b _ 0 ps' qs' CS LP LQ TP TQ RP RQ). reflexivity.
Qed.
Lemma merge_from_ok : forall (step : bool) (seqs : nat -> bytes) sw lw rw (ls rs : list line), (forall i, is_style (seqs i) = false) -> Forall proper ls -> Forall proper rs -> (2 <= lw)%nat -> (2 <= rw)%nat -> forall n i,
  exists groups, merge_from step seqs sw lw rw n i ls rs = Some (concat groups) /\ length groups = n /\
    (forall k, (k < n)%nat -> shows (if step then seqs (i + k)%nat else []) (if step then repeat 32 (sw + 2) else []) lw rw (text_at lw (i + k) ls) (text_at rw (i + k) rs) (nth k groups [])).
Proof.
  intros step seqs sw lw rw ls rs CS0 Pl Pr Hl Hr. assert (CS : forall i, isctrl (seqs i) = false) by (intros; rewrite isctrl_style; auto). induction n as [|n IH]; intros i.
  - exists []. split; auto. split; auto. intros k K. lia.
  - cbn [merge_from]. destruct (rows_shown step (seqs i) sw lw rw (if (i <? length ls)%nat then nth i ls [] else [repeat 32 lw]) (if (i <? length rs)%nat then nth i rs [] else [repeat 32 rw])) as (a & b & E1 & E2 & SHW); auto.
    { destruct (Nat.ltb_spec i (length ls)) as [B|B]; [|apply proper_blanks]. rewrite Forall_forall in Pl. apply Pl. apply nth_In. auto. }
    { destruct (Nat.ltb_spec i (length rs)) as [B|B]; [|apply proper_blanks]. rewrite Forall_forall in Pr. apply Pr. apply nth_In. auto. }
    rewrite E1, E2. destruct (IH (S i)) as (gs & E & L & SH). rewrite E. exists (merge_rows step (seqs i) sw lw rw bar_more bar_last (Nat.max (length a) (length b)) 0 a b :: gs). split; [reflexivity|]. split; [cbn; auto|].
    intros [|k] K; cbn [nth].
    + rewrite Nat.add_0_r. replace (text_at lw i ls) with (spoken (if (i <? length ls)%nat then nth i ls [] else [repeat 32 lw])) by (unfold text_at; destruct (i <? length ls)%nat; auto; rewrite <- text_spoken; apply text_blanks).
      replace (text_at rw i rs) with (spoken (if (i <? length rs)%nat then nth i rs [] else [repeat 32 rw])) by (unfold text_at; destruct (i <? length rs)%nat; auto; rewrite <- text_spoken; apply text_blanks). exact SHW.
    + rewrite Nat.add_succ_r. apply (SH k). lia.
Qed.

(** ** abbreviate *)
Lemma plain_len : forall c, plain c -> utf8len c = 1%nat.
Proof. intros c (_ & _ & L). rewrite lead_ok by lia. unfold lead. replace (c <? 192) with true by (symmetry; apply N.ltb_lt; lia). reflexivity. Qed.
Lemma plain_disperse : forall w, Forall plain w -> disperse w = Some (map (fun c => [c]) w).
Proof. induction 1 as [|c w U%plain_len F IH]; auto. cbn [disperse map]. rewrite U, IH. reflexivity. Qed.
Lemma plain_width : forall w, Forall plain w -> width w = Some (length w).
Proof. induction 1 as [|c w U%plain_len F IH]; auto. cbn [width length]. rewrite U, IH. reflexivity. Qed.
Lemma plain_not_ctrl : forall w, Forall plain w -> isctrl w = false.
Proof. intros [|c w] F; auto. destruct (Forall_inv F) as (_ & N & _). unfold isctrl. destruct c as [|p]; [reflexivity|]. do 5 (destruct p as [p|p|]; try reflexivity). congruence. Qed.
Definition dots_at (keep i n : nat) (m : bytes) : bytes := if (i <=? keep)%nat && (keep <? i + n)%nat then str "..." else m.
Lemma abbr_cells_ok : forall keep from, (keep < from)%nat -> forall w, Forall plain w -> forall i h m t,
  abbr_cells keep from i h m t (map (fun c => [c]) w) = Some ((i + length w)%nat, h ++ firstn (keep - i) w, dots_at keep i (length w) m, t ++ skipn (from - i) w).
Proof.
  intros keep from KF w. induction 1 as [|c w P F IH]; intros i h m t; cbn [map abbr_cells].
  - cbn [length]. unfold dots_at. replace ((i <=? keep)%nat && (keep <? i + 0)%nat) with false by (symmetry; destruct (Nat.leb_spec i keep), (Nat.ltb_spec keep (i + 0)); auto; lia).
    rewrite firstn_nil, skipn_nil, !app_nil_r, Nat.add_0_r. reflexivity.
  - rewrite (plain_width [c] (Forall_cons c P (Forall_nil _))). cbn [length].
    destruct (Nat.ltb_spec i keep) as [B|B].
    + rewrite IH. replace (keep - i)%nat with (S (keep - (i + 1))) by lia. replace (from - i)%nat with (S (from - (i + 1))) by lia. cbn [firstn skipn]. rewrite <- app_assoc. unfold dots_at.
      replace ((i + 1 <=? keep)%nat && (keep <? i + 1 + length w)%nat) with ((i <=? keep)%nat && (keep <? i + S (length w))%nat); [replace (i + S (length w))%nat with (i + 1 + length w)%nat by lia; reflexivity|].
      destruct (Nat.leb_spec i keep), (Nat.leb_spec (i + 1) keep), (Nat.ltb_spec keep (i + S (length w))), (Nat.ltb_spec keep (i + 1 + length w)); cbn; auto; lia.
    + destruct (Nat.eqb_spec i keep) as [E|E].
      * subst i. rewrite IH. replace (keep - keep)%nat with 0%nat by lia. replace (keep - (keep + 1))%nat with 0%nat by lia. replace (from - keep)%nat with (S (from - (keep + 1))) by lia. cbn [firstn skipn].
        unfold dots_at. replace ((keep + 1 <=? keep)%nat) with false by (symmetry; apply Nat.leb_gt; lia). replace ((keep <=? keep)%nat && (keep <? keep + S (length w))%nat) with true; [cbn [andb]; replace (keep + S (length w))%nat with (keep + 1 + length w)%nat by lia; reflexivity|].
        symmetry. apply andb_true_intro. split; [apply Nat.leb_le; lia|apply Nat.ltb_lt; lia].
      * assert (D : dots_at keep (i + 1) (length w) m = dots_at keep i (S (length w)) m).
        { unfold dots_at. replace (i <=? keep)%nat with false by (symmetry; apply Nat.leb_gt; lia). replace (i + 1 <=? keep)%nat with false by (symmetry; apply Nat.leb_gt; lia). reflexivity. }
        replace (keep - i)%nat with 0%nat by lia. destruct (Nat.leb_spec from i) as [B2|B2]; rewrite IH, D; replace (keep - (i + 1))%nat with 0%nat by lia; cbn [firstn].
        { replace (from - i)%nat with 0%nat by lia. replace (from - (i + 1))%nat with 0%nat by lia. cbn [skipn]. rewrite <- app_assoc. cbn [app]. replace (i + S (length w))%nat with (i + 1 + length w)%nat by lia. reflexivity. }
        { replace (from - i)%nat with (S (from - (i + 1))) by lia. cbn [skipn]. replace (i + S (length w))%nat with (i + 1 + length w)%nat by lia. reflexivity. }
Qed.
Lemma text_one : forall h, Forall plain h -> text (match h with [] => [] | _ => [h] end) = h.
Proof. intros [|c h] F; auto. unfold text. cbn [filter]. rewrite (plain_not_ctrl _ F). cbn. rewrite app_nil_r. reflexivity. Qed.
Lemma text_dots : forall b : bool, text (match (if b then str "..." else []) with [] => [] | _ => delta (if b then str "..." else []) dark_gray end) = (if b then str "..." else []).
Proof. intros [|]; reflexivity. Qed.
Lemma Forall_firstn' : forall (P : byte -> Prop) n l, Forall P l -> Forall P (firstn n l).
Proof. induction n as [|n IH]; intros [|x l] F; cbn; auto. inversion F; subst. constructor; auto. Qed.
Lemma Forall_skipn' : forall (P : byte -> Prop) n l, Forall P l -> Forall P (skipn n l).
Proof. induction n as [|n IH]; intros [|x l] F; cbn; auto. inversion F; subst. auto. Qed.
Lemma abbr_words_ok : forall keep from, (keep < from)%nat -> forall ws i, Forall plain (text ws) -> exists l2, abbr_words keep from i ws = Some l2 /\
  text l2 = firstn (keep - i) (text ws) ++ dots_at keep i (length (text ws)) [] ++ skipn (from - i) (text ws).
Proof.
  intros keep from KF. induction ws as [|w ws IH]; intros i F; cbn [abbr_words].
  - exists []. split; auto. unfold text. cbn [filter concat length]. rewrite firstn_nil, skipn_nil. unfold dots_at. replace ((i <=? keep)%nat && (keep <? i + 0)%nat) with false; auto. symmetry. destruct (Nat.leb_spec i keep), (Nat.ltb_spec keep (i + 0)); auto; lia.
  - destruct (isctrl w) eqn:C.
    + assert (TW : text (w :: ws) = text ws) by (unfold text; cbn [filter]; rewrite C; reflexivity). rewrite TW in F. destruct (IH i F) as (l2 & E & T). rewrite E. exists (w :: l2). split; auto. rewrite TW, <- T. unfold text. cbn [filter]. rewrite C. reflexivity.
    + assert (TW : text (w :: ws) = w ++ text ws) by (unfold text; cbn [filter]; rewrite C; reflexivity). rewrite TW in F |- *. apply Forall_app in F. destruct F as [F1 F2]. rewrite (plain_disperse w F1), (abbr_cells_ok keep from KF w F1). cbn [app].
      destruct (IH (i + length w)%nat F2) as (l2 & E & T). rewrite E. cbn [option_map]. eexists. split; [reflexivity|]. rewrite !text_app, T. unfold dots_at at 1. unfold dots_at at 1. rewrite text_dots.
      rewrite !text_one by (first [apply Forall_firstn'; auto|apply Forall_skipn'; auto]). rewrite firstn_app, skipn_app. set (T' := text ws). unfold dots_at. rewrite app_length.
      replace (keep - (i + length w))%nat with (keep - i - length w)%nat by lia. replace (from - (i + length w))%nat with (from - i - length w)%nat by lia.
      destruct (Nat.leb_spec (i + length w) keep) as [B|B].
      * replace (keep <? i + length w)%nat with false by (symmetry; apply Nat.ltb_ge; lia). rewrite andb_false_r. replace (i <=? keep)%nat with true by (symmetry; apply Nat.leb_le; lia). cbn [andb app].
        replace (skipn (from - i) w) with (@nil byte) by (symmetry; apply skipn_all2; lia). cbn [app]. rewrite <- !app_assoc. rewrite Nat.add_assoc. reflexivity.
      * replace (keep - i - length w)%nat with 0%nat by lia. cbn [firstn andb app]. rewrite app_nil_r. replace (keep <? i + length w)%nat with true by (symmetry; apply Nat.ltb_lt; lia). replace (keep <? i + (length w + length T'))%nat with true by (symmetry; apply Nat.ltb_lt; lia). rewrite <- ?app_assoc. reflexivity.
Qed.
Lemma spelled_cons : forall c w, spelled (c :: w) = (if c =? 10 then [92; 110] else if c =? 13 then [92; 114] else if c =? 9 then [92; 116] else if c =? 0 then [] else [c]) ++ spelled w.
Proof. intros [|p] w; [reflexivity|]. do 4 (destruct p as [p|p|]; try reflexivity). Qed.
Lemma escape_spelled : forall w, escape w = spelled w.
Proof. induction w as [|c w IH]; auto. rewrite spelled_cons, <- IH. reflexivity. Qed.
Lemma spelled_app : forall a b, spelled (a ++ b) = spelled a ++ spelled b. Proof. intros. rewrite <- !escape_spelled. unfold escape. rewrite map_app, concat_app. reflexivity. Qed.
Lemma spelled_plain : forall w, Forall plain w -> Forall plain (spelled w).
Proof.
  induction 1 as [|c w P F IH]; [constructor|]. rewrite spelled_cons. apply Forall_app. split; auto.
  destruct (c =? 10); [repeat constructor; discriminate|]. destruct (c =? 13); [repeat constructor; discriminate|]. destruct (c =? 9); [repeat constructor; discriminate|]. destruct (c =? 0); auto.
Qed.
Lemma escaped_line : forall l, map (fun w => if isctrl w then w else escape w) l = escaped l.
Proof. intros. apply map_ext. intros w. rewrite isctrl_style, escape_spelled. reflexivity. Qed.
Lemma escaped_text : forall l, Forall plain (spoken l) -> spoken (escaped l) = spelled (spoken l) /\ line_width (escaped l) = Some (length (spelled (spoken l))).
Proof.
  induction l as [|w l IH]; intros F; [split; reflexivity|]. cbn [escaped map]. fold (escaped l). cbn [spoken line_width] in *. rewrite isctrl_style. destruct (is_style w) eqn:C.
  - rewrite C. apply IH. auto.
  - apply Forall_app in F. destruct F as [F1 F2]. destruct (IH F2) as [I1 I2]. pose proof (spelled_plain w F1) as F3. pose proof (plain_not_ctrl _ F3) as C3. rewrite isctrl_style in C3.
    rewrite C3, (plain_width _ F3), I2, I1. rewrite spelled_app, app_length. auto.
Qed.
Lemma abbreviate_ok : forall W tail l, Forall plain (spoken l) -> (3 + tail <= W)%nat -> exists l2, abbreviate W tail l = Some l2 /\
  spoken l2 = (if (length (spelled (spoken l)) <=? W)%nat then spelled (spoken l) else shortened (W - 3 - tail) tail (spelled (spoken l))).
Proof.
  intros W tail l F H. destruct (escaped_text l F) as [T LW]. unfold abbreviate. rewrite escaped_line. cbv zeta. rewrite LW. destruct (Nat.leb_spec (length (spelled (spoken l))) W) as [B|B]; [eexists; split; [reflexivity|auto]|].
  destruct (abbr_words_ok (W - 3 - tail) (length (spelled (spoken l)) - tail) ltac:(lia) (escaped l) 0) as (l2 & E & T2); [rewrite text_spoken, T; apply spelled_plain; auto|].
  exists l2. split; auto. rewrite <- text_spoken, T2, text_spoken, T, !Nat.sub_0_r. unfold shortened, dots_at. cbn [Nat.leb andb]. rewrite Nat.add_0_l. replace (W - 3 - tail <? length (spelled (spoken l)))%nat with true by (symmetry; apply Nat.ltb_lt; lia). reflexivity.
Qed.
Lemma shortened_length : forall W tail t, (3 + tail <= W)%nat -> (W < length t)%nat -> length (shortened (W - 3 - tail) tail t) = W.
Proof. intros W tail t H L. unfold shortened. rewrite !app_length, firstn_length, skipn_length. cbn [length]. lia. Qed.
(** whatever the characters: nothing is lost when it fits *)
Lemma abbreviate_fits : forall W tail l its, spells (escaped l) its -> (columns its <= W)%nat -> abbreviate W tail l = Some (escaped l).
Proof. intros W tail l its E L. unfold abbreviate. rewrite escaped_line. cbv zeta. rewrite (line_width_spells _ _ E). replace (columns its <=? W)%nat with true by (symmetry; apply Nat.leb_le; auto). reflexivity. Qed.
