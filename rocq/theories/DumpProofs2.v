(** Proofs: rows of bits, the two columns. *)
From Coq Require Import List NArith Bool Arith Lia.
From Verif Require Import Base LineModel LineSpec LineProofs LineProofs2 DumpModel DumpSpec DumpProofs.
Import ListNotations.
Local Open Scope N_scope.

Lemma paints_marks : forall style l p q, marks style p = marks style q -> paints style l p -> paints style l q.
Proof. intros style l p q E (its & S1 & H). exists its. split; [exact S1|]. intros st C. destruct (H st C) as (A & B). rewrite A. auto. Qed.
Lemma land1 : forall x k, N.land (N.shiftr x k) 1 = if N.testbit x k then 1 else 0.
Proof.
  intros x k. change 1 with (N.ones 1) at 1. rewrite N.land_ones. change (2 ^ 1) with 2. rewrite <- N.bit0_mod, N.shiftr_spec' by lia. rewrite N.add_0_l. destruct (N.testbit x k); reflexivity.
Qed.

Section Bits.
  Variables (e a : bytes) (n : nat).
  Definition bpiece (l o : bytes) (i m : nat) : piece := (xorb (bit l (i * 32 + m)) (bit o (i * 32 + m)), if bit l (i * 32 + m) then str "1" else str "0").
  Lemma bit_at : forall l i j k, (k < 8)%nat -> N.land (N.shiftr (nth (i * 4 + j) l 0) (N.of_nat (7 - k))) 1 = if bit l (i * 32 + (8 * j + k)) then 1 else 0.
  Proof.
    intros l i j k K. rewrite land1. unfold bit. replace (i * 32 + (8 * j + k))%nat with ((i * 4 + j) * 8 + k)%nat by lia.
    replace (((i * 4 + j) * 8 + k) / 8)%nat with (i * 4 + j)%nat by (apply (Nat.div_unique _ _ _ k); lia).
    replace (((i * 4 + j) * 8 + k) mod 8)%nat with k by (apply (Nat.mod_unique _ _ (i * 4 + j)); lia). reflexivity.
  Qed.
  Lemma bits_cell_ok : forall i j k, (k < 8)%nat -> let c := bits_cell n 4 e a i j k in let m := (8 * j + k)%nat in
    paints (str "green") (fst c) (if (i * 32 + m <? n)%nat then [bpiece e a i m] else []) /\ paints (str "bold,red") (snd c) (if (i * 32 + m <? n)%nat then [bpiece a e i m] else []).
  Proof.
    intros i j k K. cbn zeta. unfold bits_cell. replace ((i * 4 + j) * 8 + k)%nat with (i * 32 + (8 * j + k))%nat by lia.
    destruct (i * 32 + (8 * j + k) <? n)%nat; [|split; apply paints_nil]. cbn zeta. rewrite !bit_at by exact K. unfold bpiece.
    assert (P0 : Forall plain (str "0")) by (repeat constructor; discriminate). assert (P1 : Forall plain (str "1")) by (repeat constructor; discriminate).
    destruct (bit e (i * 32 + (8 * j + k))), (bit a (i * 32 + (8 * j + k))); cbn [N.eqb Pos.eqb xorb fst snd]; split;
      first [apply paints_plain; assumption | apply paints_coloured; [assumption|apply styles_ok]].
  Qed.
  Definition byte_pieces (l o : bytes) (i j : nat) : list piece := (if (j =? 0)%nat then [] else [(false, str " ")]) ++ concat (map (fun k => if (i * 32 + (8 * j + k) <? n)%nat then [bpiece l o i (8 * j + k)] else []) (seq 0 8)).
  Lemma paints_concat : forall style (X : Type) (f : X -> line) (g : X -> list piece) xs, (forall x, In x xs -> paints style (f x) (g x)) -> paints style (concat (map f xs)) (concat (map g xs)).
  Proof. induction xs as [|x xs IH]; intros H; cbn; [apply paints_nil|]. apply paints_app; [apply H; left; reflexivity|apply IH; intros; apply H; right; assumption]. Qed.
  Lemma bits_byte_ok : forall i j, let c := bits_byte n 4 e a i j in paints (str "green") (fst c) (byte_pieces e a i j) /\ paints (str "bold,red") (snd c) (byte_pieces a e i j).
  Proof.
    intros i j. cbn zeta. unfold bits_byte, byte_pieces. cbn zeta. cbn [fst snd]. rewrite !map_map.
    assert (SP : forall st, paints st [str " "] [(false, str " ")]) by (intros; apply paints_plain; repeat constructor; discriminate).
    split; (apply paints_app; [destruct (j =? 0)%nat; [apply paints_nil|apply SP]|]); apply paints_concat; intros k K; apply in_seq in K; apply (bits_cell_ok i j k); lia.
  Qed.
  (** the pieces of a row, first with an unknown rule of which are there *)
  Definition shown_pieces (pc : nat -> piece) (q : nat) : list piece :=
    concat (map (fun j => (if (j =? 0)%nat then [] else [(false, str " ")]) ++ concat (map (fun k => if (8 * j + k <? q)%nat then [pc (8 * j + k)%nat] else []) (seq 0 8))) (seq 0 4)).
  Definition pieces_of (x y : nat -> bool) (m : nat) : piece := (xorb (x m) (y m), if x m then str "1" else str "0").
  Lemma marks_bits : forall style x y q, (1 <= q <= 32)%nat -> marks style (shown_pieces (pieces_of x y) q) = marks style (bit_pieces 0 (map x (seq 0 q)) (map y (seq 0 q)) ++ [missing_bytes q]).
  Proof.
    intros style x y q Q. assert (E : exists r, (r < 32)%nat /\ q = S r) by (exists (q - 1)%nat; lia). destruct E as (r & R & ->). clear Q.
    unfold marks. do 32 (destruct r as [|r]; [vm_compute; reflexivity|]). exfalso; lia.
  Qed.
  Lemma bits_row_ok : forall i, (i * 32 < n)%nat -> let r := bits_row n 4 e a i in
    let b := row_of 32 i (bits_of n e) in let c := row_of 32 i (bits_of n a) in
    painted (str "green") (fst r) (bit_pieces 0 b c ++ [missing_bytes (length b)]) /\ painted (str "bold,red") (snd r) (bit_pieces 0 c b ++ [missing_bytes (length c)]).
  Proof.
    intros i I. cbn zeta. unfold bits_of. rewrite !row_of_seq, !map_length, !seq_length. unfold bits_row. cbn zeta. cbn [fst snd]. rewrite !map_map.
    assert (G : forall l o, concat (map (byte_pieces l o i) (seq 0 4)) = shown_pieces (pieces_of (fun m => bit l (i * 32 + m)) (fun m => bit o (i * 32 + m))) (Nat.min 32 (n - i * 32))).
    { intros l o. unfold shown_pieces. f_equal. apply map_ext_in. intros j J. apply in_seq in J. unfold byte_pieces. f_equal. f_equal. apply map_ext_in. intros k K. apply in_seq in K.
      destruct (Nat.ltb_spec (i * 32 + (8 * j + k)) n), (Nat.ltb_spec (8 * j + k) (Nat.min 32 (n - i * 32))); try lia; reflexivity. }
    split; apply paints_painted; (eapply paints_marks; [apply marks_bits; lia|]); rewrite <- G; apply paints_concat; intros j J; apply bits_byte_ok.
  Qed.
End Bits.

(** ** the texts of painted lines *)
Lemma marks_text : forall style ps, concat (map snd (marks style ps)) = told ps.
Proof.
  intros style ps. unfold marks, told. induction ps as [|p ps IH]; [reflexivity|]. cbn [map concat]. rewrite map_app, concat_app, IH. f_equal.
  rewrite map_map. cbn [snd]. apply concat_singles.
Qed.
Lemma painted_text : forall style l ps, painted style l ps -> proper l /\ spoken l = told ps.
Proof.
  intros style l ps (its & S1 & H). split; [exists its; exact S1|]. rewrite (spoken_spells _ _ S1). apply (f_equal (map snd)) in H. rewrite map_map in H. cbn [snd] in H.
  rewrite tagged_cells in H. rewrite H. apply (marks_text style).
Qed.

(** ** numbers of digits *)
Lemma strlen_ok : forall d fuel n i, (1 <= i <= d)%nat -> (d <= 15)%nat -> (d < i + fuel)%nat -> n < 16 ^ N.of_nat d -> (d = i \/ (i < d)%nat /\ 16 ^ N.of_nat (d - 1) <= n) ->
  strlen_loop fuel n 16 (16 ^ N.of_nat (i - 1)) i = Some d.
Proof.
  intros d. induction fuel as [|f IH]; intros n i I D F U L; [lia|]. cbn [strlen_loop].
  assert (X : 16 ^ N.of_nat (i - 1) * 16 mod 2 ^ 64 = 16 ^ N.of_nat i).
  { replace (N.of_nat i) with (N.succ (N.of_nat (i - 1))) by lia. rewrite N.pow_succ_r', N.mul_comm. apply N.mod_small. rewrite <- N.pow_succ_r'. change (2 ^ 64) with (16 ^ 16). apply N.pow_lt_mono_r; lia. }
  rewrite X. destruct L as [->|(L & M)].
  - destruct (N.ltb_spec n (16 ^ N.of_nat i)); [reflexivity|lia].
  - destruct (N.ltb_spec n (16 ^ N.of_nat i)) as [C|C].
    + exfalso. assert (16 ^ N.of_nat i <= 16 ^ N.of_nat (d - 1)) by (apply N.pow_le_mono_r; lia). lia.
    + replace (16 ^ N.of_nat i) with (16 ^ N.of_nat (S i - 1)) by (f_equal; lia). apply IH; try lia; exact U.
Qed.
Lemma number_strlen_ok : forall n d, digits_of n d -> (d <= 15)%nat -> number_strlen n 16 = Some d.
Proof.
  intros n d (U & L) D. unfold number_strlen. change 1 with (16 ^ N.of_nat (1 - 1)) at 1. apply strlen_ok; try lia; exact U.
Qed.
Lemma lower_digits_ok : forall fuel n acc, n < 16 ^ N.of_nat fuel -> (0 < fuel)%nat -> exists d, lower_digits fuel 16 n acc = d ++ acc /\ hexed d n.
Proof.
  induction fuel as [|f IH]; intros n acc H F; [lia|]. cbn [lower_digits]. assert (M : n mod 16 < 16) by (apply N.mod_lt; lia).
  set (c := if n mod 16 <? 10 then 48 + n mod 16 else 87 + n mod 16).
  assert (HC : hex_lower c = Some (n mod 16)).
  { unfold c, hex_lower. revert M. generalize (n mod 16). intros d M. destruct (N.ltb_spec d 10).
    - destruct (N.leb_spec 48 (48 + d)), (N.leb_spec (48 + d) 57); try lia. cbn [andb]. f_equal; lia.
    - destruct (N.leb_spec 48 (87 + d)), (N.leb_spec (87 + d) 57), (N.leb_spec 97 (87 + d)), (N.leb_spec (87 + d) 102); try lia. cbn [andb]. f_equal; lia. }
  destruct (N.ltb_spec n 16) as [L|L].
  - exists [c]. split; [reflexivity|]. constructor. rewrite HC. f_equal. apply N.mod_small. exact L.
  - rewrite Nat2N.inj_succ, N.pow_succ_r' in H. assert (Q : n / 16 <> 0) by (intros Z; apply N.div_small_iff in Z; lia).
    destruct (IH (n / 16) (c :: acc)) as (d & E & X); [apply N.div_lt_upper_bound; lia| |].
    { destruct f; [|lia]. exfalso. change (16 * 16 ^ N.of_nat 0) with 16 in H. lia. }
    exists (d ++ [c]). rewrite E, <- app_assoc. split; [reflexivity|]. replace n with (16 * (n / 16) + n mod 16) by (symmetry; apply N.div_mod; lia). apply X_more; assumption.
Qed.
Lemma hexed_length : forall d n, hexed d n -> forall w, n < 16 ^ N.of_nat w -> (0 < w)%nat -> (length d <= w)%nat.
Proof.
  intros d n H. induction H as [c v C|t v c w H IH NZ C]; intros k K P; [cbn; lia|]. rewrite app_length. cbn [length]. destruct k as [|k]; [lia|]. rewrite Nat2N.inj_succ, N.pow_succ_r' in K.
  assert (v < 16 ^ N.of_nat k) by lia. destruct k as [|k]; [exfalso; change (16 ^ N.of_nat 0) with 1 in *; lia|]. specialize (IH (S k) ltac:(assumption) ltac:(lia)). lia.
Qed.
Lemma row_number_ok : forall sw step i, step * N.of_nat i < 16 ^ N.of_nat sw -> (1 <= sw <= 8)%nat -> row_label sw (step * N.of_nat i) (row_number sw 16 step i) .
Proof.
  intros sw step i H S1. unfold row_number. assert (B : step * N.of_nat i < 2 ^ 32).
  { eapply N.lt_le_trans; [exact H|]. change (2 ^ 32) with (16 ^ 8). apply N.pow_le_mono_r; lia. }
  rewrite N.mod_small by exact B. destruct (lower_digits_ok 32 (step * N.of_nat i) []) as (d & E & X); [|lia|].
  { eapply N.lt_le_trans; [exact B|]. vm_compute. discriminate. }
  rewrite E, app_nil_r. exists d. split; [exact X|]. split; [eapply hexed_length; [exact X|exact H|lia]|]. reflexivity.
Qed.
Lemma row_number_style : forall sw step i, is_style (row_number sw 16 step i) = false.
Proof.
  intros sw step i. unfold row_number. cbn zeta. destruct (sw - length _)%nat as [|k]; [|cbn [repeat app]; match goal with |- is_style (_ :: ?t) = _ => destruct t; reflexivity end]. cbn [repeat app].
  generalize (step * N.of_nat i mod 2 ^ 32). intros n. assert (G : forall f n acc, (match acc with c :: _ => c =? 27 | [] => false end) = false -> (match lower_digits f 16 n acc with c :: _ => c =? 27 | [] => false end) = false).
  { induction f as [|f IH]; intros m acc A; cbn [lower_digits]; [exact A|].
    assert (B : ((if m mod 16 <? 10 then 48 + m mod 16 else 87 + m mod 16) =? 27) = false).
    { generalize (m mod 16). intros d. apply N.eqb_neq. destruct (d <? 10); lia. }
    destruct (m <? 16); [exact B|apply IH, B]. }
  specialize (G 32%nat n [] eq_refl). destruct (lower_digits 32 16 n []) as [|c [|d r]]; [reflexivity| |]; cbn in *; rewrite G; reflexivity.
Qed.

(** ** widths *)
Lemma lines_width_ok : forall ls, Forall proper ls -> exists w, lines_width ls = Some w.
Proof.
  intros ls H. induction H as [|l ls (its & L) H (w & IH)]; [exists O; reflexivity|]. cbn [lines_width]. rewrite (line_width_spells _ _ L), IH. eexists. reflexivity.
Qed.
Lemma centre_ok : forall s w, centred s w (centre s w).
Proof.
  intros s w. unfold centre. destruct (Nat.leb_spec w (length s)) as [L|L].
  - exists O, O. cbn [repeat]. rewrite app_nil_r. split; [reflexivity|]. split; [lia|lia].
  - cbn zeta. exists ((w - length s) / 2)%nat, (w - (w - length s) / 2 - length s)%nat. split; [reflexivity|].
    assert (D := Nat.div_mod (w - length s) 2 ltac:(lia)). assert (M := Nat.mod_upper_bound (w - length s) 2 ltac:(lia)).
    generalize dependent ((w - length s) / 2)%nat. intros d D. generalize dependent ((w - length s) mod 2)%nat. intros r D M.
    split; [|lia]. rewrite !app_length, !repeat_length. lia.
Qed.
Lemma spoken_brush1 : forall s w, is_style w = false -> spoken (brush s [w]) = w.
Proof. intros s w H. rewrite <- text_spoken, text_brush, text_spoken. cbn [spoken]. rewrite H. apply app_nil_r. Qed.
Lemma split_ok : forall ls rs lt rt step W sw R, Forall proper ls -> Forall proper rs -> length ls = R -> length rs = R -> (2 <= length lt)%nat -> (2 <= length rt)%nat ->
  step <> 0 -> digits_of (step * N.of_nat R) sw -> (sw <= 8)%nat -> (sw + 10 <= W)%nat -> N.of_nat W < 2 ^ 64 ->
  exists lw rw title groups tl tr, split ls rs lt rt step 16 W = Some (title :: concat groups) /\ (2 <= lw)%nat /\ (2 <= rw)%nat /\ (lw + rw + sw + 6 <= W)%nat /\
    centred lt lw tl /\ centred rt rw tr /\ spoken title = repeat 32 (sw + 2) ++ tl ++ str "   " ++ tr /\ length groups = R /\
    forall k, (k < R)%nat -> exists label, row_label sw (step * N.of_nat k) label /\ shows label (repeat 32 (sw + 2)) lw rw (spoken (nth k ls [])) (spoken (nth k rs [])) (nth k groups []).
Proof.
  intros ls rs lt rt step W sw R PL PR LL LR TL TR NZ DG S8 WW W64. unfold split. rewrite LL, LR, Nat.max_id. rewrite (number_strlen_ok _ _ DG) by lia.
  destruct (lines_width_ok ls PL) as (wl & ->), (lines_width_ok rs PR) as (wr & ->).
  assert (V : N.to_nat ((N.of_nat W + 2 ^ 64 - N.of_nat (sw + 1 + 1 + 4)) mod 2 ^ 64) = (W - sw - 6)%nat).
  { replace (N.of_nat W + 2 ^ 64 - N.of_nat (sw + 1 + 1 + 4)) with (N.of_nat (W - sw - 6) + 1 * 2 ^ 64) by lia. rewrite N.mod_add by lia. rewrite N.mod_small by lia. lia. }
  rewrite V. set (valid := (W - sw - 6)%nat). set (l0 := Nat.max wl (length lt)). set (r0 := Nat.max wr (length rt)).
  assert (HV : (2 <= valid / 2)%nat) by (apply Nat.div_le_lower_bound; lia).
  assert (HV2 : (valid / 2 + valid / 2 <= valid)%nat) by (pose proof (Nat.mul_div_le valid 2); lia).
  assert (K : exists lw rw, (if (l0 <? valid / 2)%nat then (l0, Nat.min (valid - l0) r0) else if (r0 <? valid / 2)%nat then (Nat.min (valid - r0) l0, r0) else ((valid / 2)%nat, (valid / 2)%nat)) = (lw, rw) /\ (2 <= lw)%nat /\ (2 <= rw)%nat /\ (lw + rw <= valid)%nat).
  { do 2 eexists. split; [apply surjective_pairing|]. assert (2 <= l0)%nat by lia. assert (2 <= r0)%nat by lia.
    destruct (Nat.ltb_spec l0 (valid / 2)); [cbn [fst snd]; lia|]. destruct (Nat.ltb_spec r0 (valid / 2)); cbn [fst snd]; lia. }
  destruct K as (lw & rw & -> & Hl & Hr & HS). destruct (N.eqb_spec step 0) as [Z|_]; [contradiction|]. cbn [negb].
  destruct (merge_from_ok true (row_number sw 16 step) sw lw rw ls rs (row_number_style sw step) PL PR Hl Hr (Nat.max (length ls) (length rs)) 0) as (gs & GE & GL & GS).
  unfold lines_merge. rewrite GE. cbn [option_map]. do 2 eexists. eexists. exists gs, (centre lt lw), (centre rt rw). split; [reflexivity|]. split; [exact Hl|]. split; [exact Hr|]. split; [lia|].
  split; [apply centre_ok|]. split; [apply centre_ok|]. split; [apply spoken_brush1; rewrite Nat.add_comm; reflexivity|]. rewrite LL, LR, Nat.max_id in GL, GS. split; [exact GL|]. intros k Hk.
  exists (row_number sw 16 step k). split.
  - destruct DG as (U & L). apply row_number_ok; [|destruct L; lia]. eapply N.le_lt_trans; [|exact U]. apply N.mul_le_mono_l. lia.
  - specialize (GS k Hk). cbn [Nat.add] in GS. unfold text_at in GS. rewrite LL, LR in GS. destruct (Nat.ltb_spec k R); [|lia]. exact GS.
Qed.
