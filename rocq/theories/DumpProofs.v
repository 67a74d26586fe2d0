(** Proofs: rows of a memory dump. *)
From Coq Require Import List NArith Bool Arith Lia.
From Verif Require Import Base LineModel LineSpec LineProofs LineProofs2 DumpModel DumpSpec.
Import ListNotations.
Local Open Scope N_scope.

(** ** painted lines piece by piece *)
Definition marks (style : bytes) (ps : list piece) : list (option bytes * bytes) :=
  concat (map (fun p => map (fun c => (if fst p : bool then Some ([27; 123] ++ style ++ [125]) else None, [c])) (snd p)) ps).
Definition paints (style : bytes) (l : line) (ps : list piece) : Prop :=
  exists its, spells l its /\ forall st, colour_of st = None ->
    map (fun p => (colour_of (fst p), snd p)) (tagged st its) = marks style ps /\ colour_of (last_style st its) = None.
Lemma paints_painted : forall style l ps, paints style l ps -> painted style l ps.
Proof. intros style l ps (its & S1 & H). exists its. split; [exact S1|]. apply (H [] eq_refl). Qed.
Lemma paints_nil : forall style, paints style [] [].
Proof. intros. exists []. split; [constructor|]. intros st C. split; [reflexivity|exact C]. Qed.
Lemma marks_app : forall style a b, marks style (a ++ b) = marks style a ++ marks style b.
Proof. intros. unfold marks. rewrite map_app, concat_app. reflexivity. Qed.
Lemma paints_app : forall style a b p q, paints style a p -> paints style b q -> paints style (a ++ b) (p ++ q).
Proof.
  intros style a b p q (x & X & H) (y & Y & K). exists (x ++ y). split; [apply spells_app; assumption|]. intros st C.
  destruct (H st C) as (H1 & H2). destruct (K _ H2) as (K1 & K2). rewrite tagged_app, map_app, H1, K1, marks_app, last_app. auto.
Qed.
Lemma plain_chars : forall w, Forall plain w -> Forall is_char (map (fun c => [c]) w).
Proof.
  intros w H. induction H as [|c w (A & B & C) H IH]; constructor; [|exact IH]. exists c, []. split; [reflexivity|]. split; [lia|]. unfold lead.
  destruct (N.ltb_spec c 192); [reflexivity|lia].
Qed.
Lemma concat_singles : forall w : bytes, concat (map (fun c => [c]) w) = w.
Proof. induction w; cbn; congruence. Qed.
Lemma plain_spells : forall w, Forall plain w -> spells [w] (map Cell (map (fun c => [c]) w)).
Proof.
  intros w H. rewrite <- (concat_singles w) at 1. rewrite <- (app_nil_r (map Cell _)). apply SWord; [|apply plain_chars; exact H|constructor].
  rewrite concat_singles, <- isctrl_style. apply plain_not_ctrl. exact H.
Qed.
Lemma tagged_cells_eq : forall cs st, tagged st (map Cell cs) = map (fun c => (st, c)) cs.
Proof. induction cs as [|c cs IH]; intros st; cbn; [reflexivity|]. rewrite IH. reflexivity. Qed.
Lemma last_cells : forall cs st, last_style st (map Cell cs) = st.
Proof. unfold last_style. induction cs as [|c cs IH]; intros st; cbn; auto. Qed.
Lemma paints_plain : forall style w, Forall plain w -> paints style [w] [(false, w)].
Proof.
  intros style w H. eexists. split; [apply plain_spells, H|]. intros st C. rewrite tagged_cells_eq, last_cells. split; [|exact C].
  unfold marks. cbn [map concat fst snd]. rewrite app_nil_r, !map_map. apply map_ext. intros c. cbn [fst snd]. rewrite C. reflexivity.
Qed.
Lemma paints_coloured : forall style w, Forall plain w -> colour_of ([27; 123] ++ style ++ [125]) = Some ([27; 123] ++ style ++ [125]) -> paints style (printf_words style w) [(true, w)].
Proof.
  intros style w H K. exists ((Ctl ([27; 123] ++ style ++ [125]) :: map Cell (map (fun c => [c]) w)) ++ [Ctl ([27; 123] ++ str "reset" ++ [125])]). split.
  - change (printf_words style w) with (([[27; 123] ++ style ++ [125]] ++ [w]) ++ [[27; 123] ++ str "reset" ++ [125]]). apply spells_app; [|apply spells_ctl; reflexivity].
    change (Ctl ([27; 123] ++ style ++ [125]) :: map Cell (map (fun c => [c]) w)) with ([Ctl ([27; 123] ++ style ++ [125])] ++ map Cell (map (fun c => [c]) w)).
    apply spells_app; [apply spells_ctl; reflexivity|apply plain_spells, H].
  - intros st C. rewrite tagged_app, last_app. split; [|reflexivity]. cbn [tagged]. rewrite app_nil_r, tagged_cells_eq. unfold marks. cbn [map concat fst snd]. rewrite app_nil_r, !map_map. apply map_ext. intros c.
    cbn [fst snd]. rewrite K. reflexivity.
Qed.

(** ** hexadecimal *)
Lemma upper_digit_ok : forall d, d < 16 -> hex_value (upper_digit d) = Some d /\ plain (upper_digit d).
Proof.
  intros d H. unfold upper_digit, hex_value, plain. destruct (N.ltb_spec d 10).
  - destruct (N.leb_spec 48 (48 + d)), (N.leb_spec (48 + d) 57); try lia. cbn [andb]. split; [f_equal; lia|lia].
  - destruct (N.leb_spec 48 (55 + d)), (N.leb_spec (55 + d) 57), (N.leb_spec 65 (55 + d)), (N.leb_spec (55 + d) 70); try lia. cbn [andb]. split; [f_equal; lia|lia].
Qed.
Lemma hex_fixed_ok : forall n v, v < 16 ^ N.of_nat n -> Hex (hex_fixed n v) v /\ length (hex_fixed n v) = n /\ Forall plain (hex_fixed n v).
Proof.
  induction n as [|n IH]; intros v H; cbn [hex_fixed].
  - assert (v = 0) by (change (16 ^ N.of_nat 0) with 1 in H; lia). subst. repeat split; constructor.
  - rewrite Nat2N.inj_succ, N.pow_succ_r' in H. destruct (IH (v / 16)) as (A & B & C); [apply N.div_lt_upper_bound; lia|].
    destruct (upper_digit_ok (v mod 16)) as (D & E); [apply N.mod_lt; lia|]. split; [|split].
    + replace v with (16 * (v / 16) + v mod 16) at 3 by (symmetry; apply N.div_mod; lia). apply H_snoc; assumption.
    + rewrite app_length, B. cbn. lia.
    + apply Forall_app. split; [exact C|constructor; [exact E|constructor]].
Qed.
Lemma gap_plain : forall m, Forall plain (gap m).
Proof. intros m. unfold gap. do 9 (destruct m as [|m]; [vm_compute; repeat constructor; discriminate|]). vm_compute; repeat constructor; discriminate. Qed.

(** ** elements *)
Lemma load_le : forall size l off, (off + size <= length l)%nat -> load l size off = le (firstn size (skipn off l)).
Proof.
  induction size as [|s IH]; intros l off H; cbn [load]; [rewrite firstn_O; reflexivity|].
  assert (E : skipn off l = nth off l 0 :: skipn (S off) l).
  { clear - H. revert off H. induction l as [|x l IH]; intros [|off] H; cbn in *; try lia; [reflexivity|]. apply IH. lia. }
  rewrite E. cbn [firstn le]. rewrite IH by lia. reflexivity.
Qed.
Lemma le_bound : forall l, Forall (fun b => b < 256) l -> le l < 256 ^ N.of_nat (length l).
Proof. intros l H. induction H as [|b l B H IH]; cbn [le length]; [lia|]. rewrite Nat2N.inj_succ, N.pow_succ_r'. nia. Qed.
Lemma Forall_part : forall (P : byte -> Prop) a b l, Forall P l -> Forall P (firstn a (skipn b l)).
Proof. intros P a b l H. apply Forall_firstn', Forall_skipn', H. Qed.
Lemma element_bound : forall size l m, Forall (fun b => b < 256) l -> element size l m < 256 ^ N.of_nat size.
Proof.
  intros size l m H. unfold element. pose proof (le_bound _ (Forall_part _ size (m * size) l H)) as B. eapply N.lt_le_trans; [exact B|]. apply N.pow_le_mono_r; [lia|].
  rewrite firstn_length. lia.
Qed.
Lemma pow_hex : forall n, 256 ^ N.of_nat n = 16 ^ N.of_nat (2 * n).
Proof. intros. rewrite Nat2N.inj_mul. rewrite N.pow_mul_r. reflexivity. Qed.

Lemma small_elements : forall size l m, Forall (fun b => b < 256) l -> (size <= 4)%nat -> element size l m < 2 ^ 32.
Proof. intros size l m B S4. eapply N.lt_le_trans; [apply element_bound, B|]. change (2 ^ 32) with (256 ^ 4). apply N.pow_le_mono_r; lia. Qed.

(** ** rows of a list *)
Lemma skipn_seq' : forall m z q, skipn q (seq z m) = seq (z + q) (m - q).
Proof. induction m as [|m IH]; intros z [|q]; cbn; try reflexivity; [rewrite Nat.add_0_r; reflexivity|]. rewrite IH. f_equal. lia. Qed.
Lemma firstn_seq' : forall p q c, firstn p (seq q c) = map (fun k => (q + k)%nat) (seq 0 (Nat.min p c)).
Proof.
  induction p as [|p IH]; intros q [|c]; cbn; try reflexivity. rewrite IH, Nat.add_0_r. f_equal. rewrite <- seq_shift, map_map. apply map_ext. intros k. lia.
Qed.
Lemma row_of_seq : forall {A} (f : nat -> A) per i m, row_of per i (map f (seq 0 m)) = map (fun k => f (i * per + k)%nat) (seq 0 (Nat.min per (m - i * per))).
Proof. intros A f per i m. unfold row_of. rewrite skipn_map, firstn_map, skipn_seq', firstn_seq', map_map. reflexivity. Qed.

(** ** one row of numbers *)
Definition styles_ok : colour_of ([27; 123] ++ str "green" ++ [125]) = Some ([27; 123] ++ str "green" ++ [125]) /\ colour_of ([27; 123] ++ str "bold,red" ++ [125]) = Some ([27; 123] ++ str "bold,red" ++ [125]).
Proof. split; reflexivity. Qed.
Lemma gap_eq : forall size m, (0 < size)%nat -> (if (m * size =? 0)%nat then [] else if (m * size / size =? 8)%nat then str "  " else str " ") = gap m.
Proof.
  intros size m H. rewrite Nat.div_mul by lia. unfold gap. destruct m as [|m]; [reflexivity|]. destruct (Nat.eqb_spec (S m * size) 0); [nia|].
  do 8 (destruct m as [|m]; [reflexivity|]). reflexivity.
Qed.
Section Row.
  Variables (size per : nat) (e a : bytes) (n : nat).
  Hypothesis SZ : (1 <= size)%nat.
  Hypothesis PER : (0 < per)%nat.
  Hypothesis LE : length e = (n * size)%nat.
  Hypothesis LA : length a = (n * size)%nat.
  Hypothesis BE : Forall (fun b => b < 256) e.
  Hypothesis BA : Forall (fun b => b < 256) a.
  Lemma load_element : forall l i k, length l = (n * size)%nat -> (i * per + k < n)%nat -> load l size (i * (per * size) + k * size) = element size l (i * per + k).
  Proof.
    intros l i k L H. replace (i * (per * size) + k * size)%nat with ((i * per + k) * size)%nat by nia. unfold element. apply load_le. rewrite L. nia.
  Qed.
  Lemma printed_bound : forall l m, Forall (fun b => b < 256) l -> printed (element size l m) < 16 ^ N.of_nat (2 * size).
  Proof.
    intros l m B. rewrite <- pow_hex. pose proof (element_bound size l m B) as H. unfold printed. apply N.le_lt_trans with (2 := H). apply N.mod_le. discriminate.
  Qed.
  Definition cell_piece (l o : bytes) (i k : nat) : piece := (negb (element size l (i * per + k) =? element size o (i * per + k)), gap k ++ hex_fixed (2 * size) (printed (element size l (i * per + k)))).
  Lemma cell_ok : forall i k, (i * per + k < n)%nat ->
    paints (str "green") (fst (ints_cell size (per * size) e a i (k * size))) [cell_piece e a i k] /\
    paints (str "bold,red") (snd (ints_cell size (per * size) e a i (k * size))) [cell_piece a e i k].
  Proof.
    intros i k H. unfold ints_cell, cell_piece. destruct (Nat.ltb_spec (i * (per * size) + k * size) (length e)); [|rewrite LE in *; nia]. cbn zeta.
    rewrite !load_element by assumption.  rewrite gap_eq by lia.
    assert (PE : Forall plain (gap k ++ hex_fixed (2 * size) (printed (element size e (i * per + k))))).
    { apply Forall_app. split; [apply gap_plain|]. apply hex_fixed_ok. apply printed_bound, BE. }
    assert (PA : Forall plain (gap k ++ hex_fixed (2 * size) (printed (element size a (i * per + k))))).
    { apply Forall_app. split; [apply gap_plain|]. apply hex_fixed_ok. apply printed_bound, BA. }
    rewrite (N.eqb_sym (element size a (i * per + k))).
    destruct (element size e (i * per + k) =? element size a (i * per + k)); cbn [fst snd negb]; split; try (apply paints_plain; assumption); apply paints_coloured; try assumption; apply styles_ok.
  Qed.
  Lemma cell_none : forall i k, (n <= i * per + k)%nat -> ints_cell size (per * size) e a i (k * size) = ([], []).
  Proof. intros i k H. unfold ints_cell. destruct (Nat.ltb_spec (i * (per * size) + k * size) (length e)); [rewrite LE in *; nia|reflexivity]. Qed.
  Lemma row_paints : forall i c k, 
    let cs := map (fun k => ints_cell size (per * size) e a i (k * size)) (seq k c) in
    let ks := filter (fun k => (i * per + k <? n)%nat) (seq k c) in
    paints (str "green") (concat (map fst cs)) (map (cell_piece e a i) ks) /\ paints (str "bold,red") (concat (map snd cs)) (map (cell_piece a e i) ks).
  Proof.
    intros i. induction c as [|c IH]; intros k; cbn [seq map concat filter]; [split; apply paints_nil|]. destruct (IH (S k)) as (A & B). cbn zeta in A, B.
    destruct (Nat.ltb_spec (i * per + k) n).
    - destruct (cell_ok i k H) as (P & Q). cbn [map]. split; [apply (paints_app _ _ _ [_] _ P A)|apply (paints_app _ _ _ [_] _ Q B)].
    - rewrite cell_none by assumption. cbn [fst snd app]. auto.
  Qed.
  Lemma filter_seq : forall i c k, filter (fun k => (i * per + k <? n)%nat) (seq k c) = seq k (Nat.min c (n - (i * per + k))).
  Proof.
    intros i. induction c as [|c IH]; intros k; cbn [seq filter]; [reflexivity|]. rewrite IH. destruct (Nat.ltb_spec (i * per + k) n).
    - replace (Nat.min (S c) (n - (i * per + k))) with (S (Nat.min c (n - (i * per + S k)))) by lia. reflexivity.
    - replace (Nat.min c (n - (i * per + S k))) with 0%nat by lia. replace (Nat.min (S c) (n - (i * per + k))) with 0%nat by lia. reflexivity.
  Qed.
  Lemma numbers_ok : forall l o i, Forall (fun b => b < 256) l -> Forall (fun b => b < 256) o -> forall c k,
    Halves (2 * size) k (map (fun k => element size l (i * per + k)) (seq k c)) (map (fun k => element size o (i * per + k)) (seq k c)) (map (cell_piece l o i) (seq k c)).
  Proof.
    intros l o i BL BO. induction c as [|c IH]; intros k; cbn [seq map]; [constructor|]. 
    destruct (hex_fixed_ok (2 * size) (printed (element size l (i * per + k)))) as (A & B & C); [apply printed_bound, BL|]. constructor; auto.
  Qed.
  Lemma ints_row_ok : forall i, let r := ints_row size (per * size) e a i in exists ps qs,
    Halves (2 * size) 0 (row_of per i (elements size e)) (row_of per i (elements size a)) ps /\ painted (str "green") (fst r) ps /\
    Halves (2 * size) 0 (row_of per i (elements size a)) (row_of per i (elements size e)) qs /\ painted (str "bold,red") (snd r) qs.
  Proof.
    intros i. cbn zeta. unfold ints_row. cbn zeta.
    assert (C : ((per * size + size - 1) / size = per)%nat).
    { symmetry. apply (Nat.div_unique _ _ _ (size - 1)); lia. }
    rewrite C. destruct (row_paints i per 0) as (A & B). cbn zeta in A, B. rewrite filter_seq, Nat.add_0_r in A, B. unfold elements. rewrite LE, LA, Nat.div_mul by lia. rewrite !row_of_seq.
    do 2 eexists. split; [apply numbers_ok; assumption|]. split; [apply paints_painted, A|]. split; [apply numbers_ok; assumption|apply paints_painted, B].
  Qed.
End Row.
