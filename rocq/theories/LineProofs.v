From Coq Require Import List NArith Bool Arith Lia.
From Verif Require Import Base LineModel LineSpec.
Import ListNotations.
Local Open Scope N_scope.

Lemma utf8len_range : forall a, (1 <= utf8len a <= 4)%nat.
Proof. intros a. unfold utf8len. destruct (_ =? 240); [lia|]. destruct (_ =? 224); [lia|]. destruct (_ =? 192); lia. Qed.
Lemma lead_ok : forall a, a < 256 -> utf8len a = lead a.
Proof.
  assert (A : forallb (fun n => (utf8len (N.of_nat n) =? lead (N.of_nat n))%nat) (seq 0 (N.to_nat 256)) = true) by (vm_compute; reflexivity).
  intros a L. rewrite forallb_forall in A. specialize (A (N.to_nat a)). rewrite N2Nat.id in A. apply Nat.eqb_eq. apply A. apply in_seq. lia.
Qed.
Lemma char_len : forall c, is_char c -> exists a r, c = a :: r /\ length c = utf8len a.
Proof. intros c (a & r & E & B & L). exists a, r. rewrite lead_ok; auto. Qed.
Lemma isctrl_style : forall w, isctrl w = is_style w.
Proof.
  intros [|c [|d r]]; [reflexivity| |].
  - cbn. destruct c as [|p]; [reflexivity|]. do 5 (destruct p as [p|p|]; try reflexivity).
  - unfold isctrl, is_style. destruct (N.eqb_spec c 27) as [->|N1]; [destruct (N.eqb_spec d 123) as [->|N2]; [reflexivity|]|].
    + cbn [andb]. destruct d as [|p]; [reflexivity|]. do 7 (destruct p as [p|p|]; try reflexivity). congruence.
    + cbn [andb]. destruct c as [|p]; [reflexivity|]. do 5 (destruct p as [p|p|]; try reflexivity). congruence.
Qed.
Lemma text_spoken : forall l, text l = spoken l.
Proof. induction l as [|w l IH]; auto. unfold text in *. cbn [filter spoken]. rewrite isctrl_style. destruct (is_style w); cbn [negb concat]; rewrite IH; auto. Qed.
Lemma disperse_chars : forall cs, Forall is_char cs -> disperse (concat cs) = Some cs.
Proof.
  induction 1 as [|c cs (a & r & -> & L)%char_len F IH]; auto. cbn [concat]. pose proof (utf8len_range a) as U. cbn [length] in L.
  destruct r as [|b1 [|b2 [|b3 [|b4 r]]]]; cbn [length] in L; try lia; cbn [app disperse]; rewrite <- L, IH; reflexivity.
Qed.
Lemma width_chars : forall cs, Forall is_char cs -> width (concat cs) = Some (list_sum (map cellw cs)).
Proof.
  induction 1 as [|c cs (a & r & -> & L)%char_len F IH]; auto. cbn [concat]. pose proof (utf8len_range a) as U. cbn [length] in L.
  destruct r as [|b1 [|b2 [|b3 [|b4 r]]]]; cbn [length] in L; try lia; cbn [app width]; rewrite <- L, IH; reflexivity.
Qed.
Lemma width_char : forall c, is_char c -> width c = Some (cellw c).
Proof. intros c C. pose proof (width_chars [c]) as H. cbn [concat map list_sum fold_right] in H. rewrite app_nil_r, Nat.add_0_r in H. auto. Qed.
Lemma char_not_ctrl : forall c, is_char c -> isctrl c = false.
Proof.
  intros c (a & r & -> & L)%char_len. destruct (N.eq_dec a 27) as [->|N].
  - change (utf8len 27) with 1%nat in L. destruct r; [reflexivity|cbn in L; lia].
  - unfold isctrl. destruct a as [|p]; [reflexivity|]. do 5 (destruct p as [p|p|]; try reflexivity). congruence.
Qed.
Lemma cells_app : forall a b, cells (a ++ b) = cells a ++ cells b. Proof. intros. unfold cells. rewrite map_app, concat_app. reflexivity. Qed.
Lemma cells_map : forall cs, cells (map Cell cs) = cs. Proof. induction cs as [|c cs IH]; auto. unfold cells in *. cbn. rewrite IH. reflexivity. Qed.
Lemma columns_app : forall a b, columns (a ++ b) = (columns a + columns b)%nat. Proof. intros. unfold columns. rewrite cells_app, map_app, list_sum_app. reflexivity. Qed.
Lemma spells_app : forall a x, spells a x -> forall b y, spells b y -> spells (a ++ b) (x ++ y).
Proof. induction 1; intros b y Hb; cbn [app]; auto; [constructor; auto|]. rewrite <- app_assoc. constructor; auto. Qed.
Lemma spells_cell : forall c, is_char c -> spells [c] [Cell c].
Proof. intros c C. pose proof (SWord [c] [] []) as H. cbn in H. rewrite app_nil_r in H. apply H; auto; [rewrite <- isctrl_style; apply char_not_ctrl; auto|constructor]. Qed.
Lemma spells_ctl : forall w, isctrl w = true -> spells [w] [Ctl w]. Proof. intros. constructor; [rewrite <- isctrl_style; auto|constructor]. Qed.
Lemma line_width_spells : forall l its, spells l its -> line_width l = Some (columns its).
Proof.
  induction 1 as [|w l its C S IH|cs l its C F S IH]; auto; cbn [line_width]; rewrite isctrl_style, C.
  - rewrite IH. reflexivity.
  - rewrite (width_chars cs F), IH. rewrite columns_app. unfold columns at 2. rewrite cells_map. reflexivity.
Qed.
Lemma pad_ok : forall W l its, spells l its -> (columns its <= W)%nat -> exists q, pad_to W l = Some q /\ filled W q its.
Proof.
  intros W l its S L. unfold pad_to. rewrite (line_width_spells l its S). replace (columns its <=? W)%nat with true by (symmetry; apply Nat.leb_le; auto). eexists. split; [reflexivity|].
  exists l, (W - columns its)%nat. split; [|split; auto; lia]. unfold padding. destruct (W - columns its =? 0)%nat; auto. rewrite app_nil_r. auto.
Qed.
Definition last_style (st : bytes) (its : list item) : bytes := fold_left (fun s i => match i with Ctl w => w | Cell _ => s end) its st.
Lemma tagged_app : forall a st b, tagged st (a ++ b) = tagged st a ++ tagged (last_style st a) b.
Proof. induction a as [|[w|c] a IH]; intros st b; [reflexivity|exact (IH w b)|]. cbn [app tagged]. rewrite (IH st b). reflexivity. Qed.
Lemma last_app : forall a st b, last_style st (a ++ b) = last_style (last_style st a) b. Proof. intros. unfold last_style. apply fold_left_app. Qed.
Definition restart (st : bytes) : list item := match st with [] => [] | _ => [Ctl st] end.
Lemma needed_snoc : forall W a l b, needed W (l ++ [a]) -> full W a b -> needed W (l ++ [a; b]).
Proof.
  induction l as [|x l IH]; intros b N F; [cbn; auto|]. destruct l as [|y l].
  - cbn in *. destruct N as [N1 N2]. auto.
  - destruct N as [N1 N2]. split; [exact N1|]. apply (IH b N2 F).
Qed.
Lemma needed_last : forall W l a x, needed W (l ++ [a]) -> cells a <> [] -> needed W (l ++ [a ++ x]).
Proof.
  induction l as [|y l IH]; intros a x N NE; [cbn; auto|]. destruct l as [|z l].
  - cbn in *. destruct N as [F _]. split; auto. unfold full in *. rewrite cells_app. destruct (cells a); [congruence|]. exact F.
  - destruct N as [F N]. split; [exact F|]. apply (IH a x N NE).
Qed.
(** state of the loops: finished lines spelled by [dn], wrap spelled by [cur], the style in force *)
Definition inv (W : nat) (st : bytes) (lines : list line) (wrap : line) (dn : list (list item)) (cur : list item) (seen : list (bytes * bytes)) : Prop :=
  Forall2 (filled W) lines dn /\ spells wrap cur /\ (columns cur <= W)%nat /\ last_style [] cur = st /\ (st = [] \/ isctrl st = true) /\
  seen = concat (map (tagged []) dn) ++ tagged [] cur /\ needed W (dn ++ [cur]) /\ (dn <> [] -> cells cur <> []).
Lemma cells_step : forall W st cs lines wrap dn cur seen, Forall is_char cs -> Forall (fun c => (cellw c <= W)%nat) cs -> inv W st lines wrap dn cur seen ->
  exists ls wr dn' cur', cells_loop W st cs lines wrap = Some (ls, wr) /\ inv W st ls wr dn' cur' (seen ++ tagged st (map Cell cs)).
Proof.
  induction cs as [|c cs IH]; intros lines wrap dn cur seen F FW I; cbn [cells_loop].
  - exists lines, wrap, dn, cur. split; auto. cbn. rewrite app_nil_r. auto.
  - pose proof (Forall_inv F) as C. pose proof (Forall_inv FW) as CW. cbn beta in CW. apply Forall_inv_tail in F. apply Forall_inv_tail in FW.
    destruct I as (I1 & I2 & I3 & I4 & I5 & I6 & I7 & I8). rewrite (line_width_spells _ _ I2), (width_char c C). destruct (Nat.ltb_spec W (columns cur + cellw c)) as [B|B].
    + destruct (pad_ok W wrap cur I2 I3) as (q & Q & FQ). rewrite Q.
      set (cur' := restart st ++ [Cell c]).
      assert (SP : spells ((match st with [] => [] | _ => [st] end) ++ [c]) cur').
      { apply spells_app; [|apply spells_cell; auto]. destruct st as [|x t]; [constructor|]. apply spells_ctl. destruct I5 as [I5|I5]; [discriminate|auto]. }
      assert (CC : cells cur' = [c]) by (unfold cur', restart; destruct st; reflexivity).
      assert (LS : last_style [] cur' = st) by (unfold cur', restart; destruct st; reflexivity).
      assert (TG : tagged [] cur' = [(st, c)]) by (unfold cur', restart; destruct st; reflexivity).
      destruct (IH (lines ++ [q]) ((match st with [] => [] | _ => [st] end) ++ [c]) (dn ++ [cur]) cur' (seen ++ [(st, c)]) F FW) as (ls & wr & dn' & cur2 & E & J).
      { split; [apply Forall2_app; auto|]. split; [exact SP|]. split; [unfold columns; rewrite CC; cbn; lia|]. split; auto. split; auto. split; [|split].
        - rewrite map_app, concat_app. cbn [map concat]. rewrite app_nil_r, TG. rewrite I6. reflexivity.
        - rewrite <- app_assoc. cbn [app]. apply needed_snoc; auto. unfold full. rewrite CC. auto.
        - intros _. rewrite CC. discriminate. }
      rewrite E. exists ls, wr, dn', cur2. split; auto. cbn [map tagged]. rewrite <- app_assoc in J. exact J.
    + destruct (IH lines (wrap ++ [c]) dn (cur ++ [Cell c]) (seen ++ [(st, c)]) F FW) as (ls & wr & dn' & cur2 & E & J).
      { split; auto. split; [apply spells_app; auto; apply spells_cell; auto|]. split; [rewrite columns_app; unfold columns at 2; cbn; lia|]. split; [rewrite last_app, I4; reflexivity|]. split; auto. split; [|split].
        - rewrite tagged_app, I4. cbn [tagged]. rewrite I6, <- app_assoc. reflexivity.
        - destruct dn as [|d dn]; [cbn; auto|]. apply needed_last; auto. apply I8. discriminate.
        - intros _. rewrite cells_app. destruct (cells cur); discriminate. }
      rewrite E. exists ls, wr, dn', cur2. split; auto. cbn [map tagged]. rewrite <- app_assoc in J. exact J.
Qed.
Lemma words_step : forall W ws its, spells ws its -> Forall (fun c => (cellw c <= W)%nat) (cells its) -> forall st lines wrap dn cur seen, inv W st lines wrap dn cur seen ->
  exists ls wr dn' cur', words_loop W st ws lines wrap = Some (ls, wr) /\ inv W (last_style st its) ls wr dn' cur' (seen ++ tagged st its).
Proof.
  induction 1 as [|w l its C S IH|cs l its C F S IH]; intros FW st lines wrap dn cur seen I; cbn [words_loop].
  - exists lines, wrap, dn, cur. split; auto. cbn. rewrite app_nil_r. auto.
  - rewrite isctrl_style, C. destruct I as (I1 & I2 & I3 & I4 & I5 & I6 & I7 & I8). destruct (IH FW w lines (wrap ++ [w]) dn (cur ++ [Ctl w]) seen) as (ls & wr & dn' & cur' & E & J).
    { split; auto. split; [apply spells_app; auto; apply spells_ctl; rewrite isctrl_style; auto|]. split; [rewrite columns_app; unfold columns at 2; cbn; lia|]. split; [rewrite last_app; reflexivity|]. split; [right; rewrite isctrl_style; auto|]. split; [|split].
      - rewrite tagged_app. cbn [tagged]. rewrite app_nil_r. auto.
      - destruct dn as [|d dn]; [cbn; auto|]. apply needed_last; auto. apply I8. discriminate.
      - intros D. rewrite cells_app. specialize (I8 D). destruct (cells cur); [congruence|discriminate]. }
    exists ls, wr, dn', cur'. split; auto.
  - rewrite isctrl_style, C, (disperse_chars cs F). rewrite cells_app, cells_map in FW. apply Forall_app in FW. destruct FW as [FW1 FW2].
    destruct (cells_step W st cs lines wrap dn cur seen F FW1 I) as (ls & wr & dn' & cur' & E & J). rewrite E.
    destruct (IH FW2 st ls wr dn' cur' _ J) as (ls2 & wr2 & dn2 & cur2 & E2 & J2). exists ls2, wr2, dn2, cur2. split; auto.
    assert (LS : last_style st (map Cell cs) = st) by (clear; unfold last_style; induction cs; cbn; auto).
    rewrite last_app, tagged_app, LS, app_assoc. exact J2.
Qed.
Lemma break_ok : forall W l its, spells l its -> Forall (fun c => (cellw c <= W)%nat) (cells its) ->
  exists ls parts, line_break W l = Some ls /\ Forall2 (filled W) ls parts /\ concat (map (tagged []) parts) = tagged [] its /\ needed W parts.
Proof.
  intros W l its S F. destruct (words_step W l its S F [] [] [] [] [] []) as (ls & wr & dn & cur & E & (I1 & I2 & I3 & I4 & I5 & I6 & I7 & I8)).
  { split; [constructor|]. split; [constructor|]. split; [cbn; lia|]. split; auto. split; auto. split; auto. split; [cbn; auto|]. intros H. congruence. }
  unfold line_break. rewrite E. destruct (pad_ok W wr cur I2 I3) as (q & Q & FQ). rewrite Q. exists (ls ++ [q]), (dn ++ [cur]). split; auto. split; [apply Forall2_app; auto|]. split; auto.
  rewrite map_app, concat_app. cbn [map concat]. rewrite app_nil_r. symmetry. exact I6.
Qed.

(** text of a line *)
Lemma text_spells : forall l its, spells l its -> text l = concat (cells its).
Proof.
  induction 1 as [|w l its C S IH|cs l its C F S IH]; auto; unfold text in *; cbn [filter]; rewrite isctrl_style, C; cbn [negb].
  - rewrite IH. reflexivity.
  - cbn [concat]. rewrite IH, cells_app, cells_map, concat_app. reflexivity.
Qed.
Lemma tagged_cells : forall its st, map snd (tagged st its) = cells its.
Proof. induction its as [|[w|c] its IH]; intros st; auto; cbn; rewrite IH; reflexivity. Qed.
Lemma blanks_chars : forall k, concat (map (fun c => [c]) (repeat 32 k)) = repeat 32 k /\ Forall is_char (map (fun c => [c]) (repeat 32 k)).
Proof. induction k as [|k [E F]]; [split; auto; constructor|]. cbn. rewrite E. split; auto. constructor; auto. exists 32, []. split; [|split]; reflexivity. Qed.
Lemma blanks_spells : forall k, exists its, spells [repeat 32 k] its /\ columns its = k /\ cells its = map (fun c => [c]) (repeat 32 k).
Proof.
  intros k. destruct (blanks_chars k) as [E F]. exists (map Cell (map (fun c => [c]) (repeat 32 k)) ++ []). split; [|split].
  - rewrite <- E at 1. constructor; auto; [|constructor]. rewrite E. destruct k as [|[|k]]; reflexivity.
  - rewrite app_nil_r. unfold columns. rewrite cells_map. rewrite map_map. clear. induction k; cbn; auto.
  - rewrite app_nil_r, cells_map. reflexivity.
Qed.
Lemma spoken_spells : forall l its, spells l its -> spoken l = concat (cells its).
Proof. intros. rewrite <- text_spoken. apply text_spells. auto. Qed.
Lemma filled_width : forall W l its, filled W l its -> line_width l = Some W /\ exists k, spoken l = concat (cells its) ++ repeat 32 k.
Proof.
  intros W l its (body & k & -> & S & E). destruct (k =? 0)%nat eqn:K.
  - rewrite app_nil_r, (line_width_spells _ _ S). apply Nat.eqb_eq in K. split; [f_equal; lia|]. exists 0%nat. cbn. rewrite app_nil_r. apply spoken_spells. auto.
  - destruct (blanks_spells k) as (b & Sb & Cb & Lb). pose proof (spells_app _ _ S _ _ Sb) as SS. rewrite (line_width_spells _ _ SS), columns_app, Cb. split; [f_equal; lia|].
    exists k. rewrite (spoken_spells _ _ SS), cells_app, concat_app, Lb. f_equal. apply blanks_chars.
Qed.
