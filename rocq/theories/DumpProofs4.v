(** Proofs about the dump of memory on a console that is wide enough (C71). *)
From Coq Require Import List NArith Bool Arith Lia.
From Verif Require Import Base LineModel LineSpec LineProofs LineProofs2 DumpModel DumpSpec DumpProofs DumpProofs2 DumpProofs3.
Import ListNotations.
Local Open Scope N_scope.

Lemma columns_tagged : forall its, columns its = list_sum (map cellw (map snd (tagged [] its))).
Proof. intros its. rewrite tagged_cells. reflexivity. Qed.
Lemma break_fits : forall W l its, spells l its -> (columns its <= W)%nat -> (2 <= W)%nat -> exists q, line_break W l = Some [q] /\ exists k, spoken q = spoken l ++ repeat 32 k.
Proof.
  intros W l its S C W2. destruct (break_ok W l its S) as (ls & parts & E & FF & TG & NE); [apply Forall_forall; intros c _; pose proof (char_le2 c); lia|].
  destruct parts as [|p [|p2 parts]].
  - exfalso. inversion FF; subst. unfold line_break in E. destruct (words_loop _ _ _ _ _) as [[x y]|]; [|discriminate]. destruct (pad_to W y); [|discriminate]. injection E as E. destruct x; discriminate.
  - inversion FF as [|q ? ? ? F FF']; subst. inversion FF'; subst. exists q. split; [exact E|]. destruct (filled_width W q p F) as (_ & k & K). exists k. rewrite K. cbn [map concat] in TG. rewrite app_nil_r in TG.
    rewrite <- (tagged_cells p []), TG, tagged_cells, (spoken_spells l its S). reflexivity.
  - exfalso. cbn [needed] in NE. destruct NE as (FU & _). rewrite columns_tagged, <- TG in C. cbn [map concat] in C. rewrite !map_app, !list_sum_app in C. rewrite <- !columns_tagged in C.
    unfold full in FU. unfold columns at 2 in C. destruct (cells p2) as [|c r]; [exact FU|]. cbn [map list_sum fold_right] in C. lia.
Qed.
Lemma merged_text : forall seq sw lw rw q1 q2, isctrl seq = false -> map spoken (merge_rows true seq sw lw rw bar_more bar_last 1 0 [q1] [q2]) = [seq ++ spoken q1 ++ bar_last ++ spoken q2 ++ [32]].
Proof.
  intros seq sw lw rw q1 q2 CS. cbn [merge_rows length Nat.ltb Nat.leb Nat.eqb Nat.sub nth map]. rewrite <- (text_spoken (_ ++ _)), !text_app, !text_printf, !text_brush, !text_spoken by (try exact CS; reflexivity). reflexivity.
Qed.
Lemma merge_fits : forall seqs sw lw rw (ls rs : list line) R, (forall i, is_style (seqs i) = false) -> length ls = R -> length rs = R ->
  (forall k, (k < R)%nat -> exists q, line_break lw (nth k ls []) = Some [q] /\ exists j, spoken q = spoken (nth k ls []) ++ repeat 32 j) ->
  (forall k, (k < R)%nat -> exists q, line_break rw (nth k rs []) = Some [q] /\ exists j, spoken q = spoken (nth k rs []) ++ repeat 32 j) ->
  forall n i, (i + n = R)%nat -> exists rows, merge_from true seqs sw lw rw n i ls rs = Some rows /\ length rows = n /\
    forall k, (k < n)%nat -> exists a b, spoken (nth k rows []) = row_text (seqs (i + k)%nat) (spoken (nth (i + k) ls []), a) (spoken (nth (i + k) rs []), b) false false.
Proof.
  intros seqs sw lw rw ls rs R ST LL LR HL HR. induction n as [|n IH]; intros i I0; [exists []; split; [reflexivity|split; [reflexivity|intros k K; lia]]|].
  cbn [merge_from]. rewrite LL, LR. destruct (Nat.ltb_spec i R); [|lia]. destruct (HL i ltac:(lia)) as (q1 & E1 & a & S1). destruct (HR i ltac:(lia)) as (q2 & E2 & b & S2). rewrite E1, E2.
  destruct (IH (S i) ltac:(lia)) as (rows & -> & L & G). cbn [length Nat.max]. pose proof (merged_text (seqs i) sw lw rw q1 q2 ltac:(rewrite isctrl_style; apply ST)) as M.
  destruct (merge_rows true (seqs i) sw lw rw bar_more bar_last 1 0 [q1] [q2]) as [|m [|? ?]]; try discriminate M. injection M as M.
  exists (m :: rows). split; [reflexivity|]. split; [cbn; lia|]. intros [|k] K; cbn [nth].
  - rewrite Nat.add_0_r. exists a, b. rewrite M, S1, S2. unfold row_text, padded, bar_last. cbn [fst snd]. rewrite <- !app_assoc. reflexivity.
  - rewrite Nat.add_succ_r. apply (G k). lia.
Qed.
Lemma lines_width_bound : forall ls w, Forall (fun l => exists its, spells l its /\ (columns its <= w)%nat) ls -> exists v, lines_width ls = Some v /\ (v <= w)%nat /\ Forall (fun l => exists its, spells l its /\ (columns its <= v)%nat) ls.
Proof.
  intros ls w H. induction H as [|l ls (its & S & C) H (v & E & V & F)]; [exists O; split; [reflexivity|split; [lia|constructor]]|].
  cbn [lines_width]. rewrite (line_width_spells _ _ S), E. eexists. split; [reflexivity|]. split; [lia|]. constructor; [exists its; split; [exact S|lia]|]. eapply Forall_impl; [|exact F]. intros x (i & A & B). exists i. split; [exact A|lia].
Qed.
Lemma split_fits : forall ls rs lt rt step W sw R w, Forall (fun l => exists its, spells l its /\ (columns its <= w)%nat) ls -> Forall (fun l => exists its, spells l its /\ (columns its <= w)%nat) rs ->
  length ls = R -> length rs = R -> (2 <= length lt <= w)%nat -> (2 <= length rt <= w)%nat -> step <> 0 -> digits_of (step * N.of_nat R) sw -> (sw <= 8)%nat -> (2 * w + sw + 6 <= W)%nat -> N.of_nat W < 2 ^ 64 ->
  exists title rows, split ls rs lt rt step 16 W = Some (title :: rows) /\ length rows = R /\
    forall k, (k < R)%nat -> exists label a b, row_label sw (step * N.of_nat k) label /\ spoken (nth k rows []) = row_text label (spoken (nth k ls []), a) (spoken (nth k rs []), b) false false.
Proof.
  intros ls rs lt rt step W sw R w PL PR LL LR TL TR NZ DG S8 WW W64. unfold split. rewrite LL, LR, Nat.max_id. rewrite (number_strlen_ok _ _ DG) by lia.
  destruct (lines_width_bound ls w PL) as (wl & -> & BL & FL), (lines_width_bound rs w PR) as (wr & -> & BR & FR).
  assert (V : N.to_nat ((N.of_nat W + 2 ^ 64 - N.of_nat (sw + 1 + 1 + 4)) mod 2 ^ 64) = (W - sw - 6)%nat).
  { replace (N.of_nat W + 2 ^ 64 - N.of_nat (sw + 1 + 1 + 4)) with (N.of_nat (W - sw - 6) + 1 * 2 ^ 64) by lia. rewrite N.mod_add by lia. rewrite N.mod_small by lia. lia. }
  rewrite V. set (valid := (W - sw - 6)%nat). set (l0 := Nat.max wl (length lt)). set (r0 := Nat.max wr (length rt)).
  assert (HV : (w <= valid / 2)%nat) by (apply Nat.div_le_lower_bound; lia).
  assert (HV2 : (valid / 2 + valid / 2 <= valid)%nat) by (pose proof (Nat.mul_div_le valid 2); lia).
  assert (K : exists lw rw, (if (l0 <? valid / 2)%nat then (l0, Nat.min (valid - l0) r0) else if (r0 <? valid / 2)%nat then (Nat.min (valid - r0) l0, r0) else ((valid / 2)%nat, (valid / 2)%nat)) = (lw, rw) /\ (wl <= lw)%nat /\ (wr <= rw)%nat /\ (2 <= lw)%nat /\ (2 <= rw)%nat).
  { do 2 eexists. split; [apply surjective_pairing|]. destruct (Nat.ltb_spec l0 (valid / 2)); [cbn [fst snd]; lia|]. destruct (Nat.ltb_spec r0 (valid / 2)); cbn [fst snd]; lia. }
  destruct K as (lw & rw & -> & Hl & Hr & L2 & R2). destruct (N.eqb_spec step 0) as [Z|_]; [contradiction|]. cbn [negb].
  assert (FIT : forall (ls : list line) v lw, (v <= lw)%nat -> (2 <= lw)%nat -> length ls = R -> Forall (fun l => exists its, spells l its /\ (columns its <= v)%nat) ls -> forall k, (k < R)%nat -> exists q, line_break lw (nth k ls []) = Some [q] /\ exists j, spoken q = spoken (nth k ls []) ++ repeat 32 j).
  { intros l1 v w1 A B C F k K. rewrite Forall_forall in F. destruct (F (nth k l1 [])) as (its & S & D); [apply nth_In; lia|]. apply (break_fits w1 _ its S); lia. }
  destruct (merge_fits (row_number sw 16 step) sw lw rw ls rs R (row_number_style sw step) LL LR (FIT ls wl lw Hl L2 LL FL) (FIT rs wr rw Hr R2 LR FR) R 0%nat eq_refl) as (rows & E & L & G).
  unfold lines_merge. rewrite LL, LR, Nat.max_id, E. cbn [option_map]. do 2 eexists. split; [reflexivity|]. split; [exact L|]. intros k K. destruct (G k K) as (a & b & T). exists (row_number sw 16 step k), a, b. split; [|exact T].
  destruct DG as (U & M). apply row_number_ok; [|destruct M; lia]. eapply N.le_lt_trans; [|exact U]. apply N.mul_le_mono_l. lia.
Qed.
Lemma painted_columns : forall style l ps, painted style l ps -> exists its, spells l its /\ columns its = length (told ps).
Proof.
  intros style l ps (its & S & E). exists its. split; [exact S|]. rewrite columns_tagged. assert (E2 : map snd (tagged [] its) = map (fun c => [c]) (told ps)).
  { apply (f_equal (map snd)) in E. rewrite map_map in E. cbn [snd] in E. etransitivity; [exact E|]. unfold told. clear. induction ps as [|p ps IH]; [reflexivity|]. cbn [map concat]. rewrite !map_app, IH, map_map. reflexivity. }
  rewrite E2, map_map. clear. induction (told ps) as [|c t IH]; [reflexivity|]. cbn. f_equal. exact IH.
Qed.
Lemma numbers_width : forall d vs ws ps m, Numbers d m vs ws ps -> (length (told ps) + (if (m =? 0)%nat then (if (length vs =? 0)%nat then 0 else 1) else 0) + 0 = length vs * (d + 1) + (if (m <=? 8)%nat && (8 <? m + length vs)%nat then 1 else 0))%nat.
Proof.
  intros d vs ws ps m H. induction H as [m|m v w vs ws t ps X T N IH]; [cbn [told map concat length Nat.eqb Nat.mul]; destruct (Nat.eqb_spec m 0), (Nat.leb_spec m 8), (Nat.ltb_spec 8 (m + 0)); cbn [andb]; lia|].
  change (told ((negb (v =? w), gap m ++ t) :: ps)) with ((gap m ++ t) ++ told ps). rewrite !app_length. cbn [length Nat.eqb] in *. rewrite T.
  assert (G : length (gap m) = (if (m =? 0) then 0 else if (m =? 8) then 2 else 1)%nat) by (destruct m as [|[|[|[|[|[|[|[|[|m]]]]]]]]]; reflexivity). rewrite G.
  destruct (Nat.eqb_spec m 0), (Nat.eqb_spec m 8), (Nat.leb_spec m 8), (Nat.leb_spec (S m) 8), (Nat.ltb_spec 8 (m + S (length vs))), (Nat.ltb_spec 8 (S m + length vs)); cbn [andb] in *; try lia.
Qed.
Lemma row_length : forall {A} per k (l : list A), (length (row_of per k l) <= Nat.min per (length l))%nat.
Proof. intros A per k l. unfold row_of. rewrite firstn_length, skipn_length. lia. Qed.
Lemma number_columns : forall d vs ws ps m, Numbers d 0 vs ws ps -> (length vs <= m)%nat -> (length (told ps) <= number_row d m)%nat.
Proof.
  intros d vs ws ps m H L. pose proof (numbers_width _ _ _ _ _ H) as E. cbn [Nat.eqb Nat.leb andb Nat.add] in E. unfold number_row. destruct (Nat.eqb_spec (length vs) 0).
  - rewrite e in E. cbn in E. lia.
  - assert (length vs * (d + 1) <= m * (d + 1))%nat by (apply Nat.mul_le_mono_r; exact L). destruct (Nat.ltb_spec 8 (length vs)), (Nat.ltb_spec 8 m); lia.
Qed.
Lemma dump_numbers_fits : forall W size n e a sw, In size [1; 2; 4; 8]%nat -> length e = (n * size)%nat -> length a = (n * size)%nat -> Forall (fun b => b < 256) e -> Forall (fun b => b < 256) a ->
  (size = 8%nat -> Forall (fun v => v < 2 ^ 32) (elements 8 e ++ elements 8 a)) ->
  let per := per_row W size in let R := rows_for per n in
  digits_of (N.of_nat per * N.of_nat R) sw -> (sw <= 8)%nat -> (2 * Nat.max 6 (number_row (2 * size) (Nat.min per n)) + sw + 6 <= W)%nat -> N.of_nat W < 2 ^ 64 ->
  exists d, memcmp_dump W (8 * size) n e a = Some d /\ one_line_each sw (N.of_nat per) R (number_texts size per e a) d.
Proof.
  intros W size n e a sw SZ LE LA BE BA V8. cbn zeta. intros DG S8 WW W64.
  assert (V : forall l, l = e \/ l = a -> forall m, element size l m < 2 ^ 32).
  { intros l D m. destruct (Nat.eq_dec size 8) as [E|E].
    - specialize (V8 E). rewrite E in *. apply Forall_app in V8. destruct V8 as (V1 & V2). rewrite Forall_forall in V1, V2.
      assert (L : length l = (n * 8)%nat) by (destruct D; subst l; assumption). assert (VL : forall v, In v (elements 8 l) -> v < 2 ^ 32) by (destruct D; subst l; assumption).
      destruct (Nat.lt_ge_cases m n) as [M|M].
      + apply VL. unfold elements. rewrite L, Nat.div_mul by lia. apply in_map, in_seq. lia.
      + unfold element. rewrite skipn_all2 by lia. rewrite firstn_nil. reflexivity.
    - apply small_elements; [destruct D; subst l; assumption|]. cbn in SZ. lia. }
  set (per := per_row W size) in *. set (R := rows_for per n) in *.
  assert (PS : (0 < per)%nat /\ (1 <= size)%nat /\ memcmp_dump W (8 * size) n e a = split (fst (print_ints size (per * size) e a)) (snd (print_ints size (per * size) e a)) (str "expect") (str "actual") (N.of_nat per) 16 W).
  { cbn in SZ. unfold per, per_row. destruct SZ as [<-|[<-|[<-|[<-|[]]]]]; cbn [Nat.eqb andb]; [destruct (Nat.ltb_spec W 108)| | |]; (split; [vm_compute; lia|]); (split; [lia|]); unfold memcmp_dump; cbn [Nat.mul Nat.add].
    1: destruct (Nat.ltb_spec W 108); [|lia]. 2: destruct (Nat.ltb_spec W 108); [lia|].
    all: rewrite (surjective_pairing (print_ints _ _ e a)); reflexivity. }
  destruct PS as (P & S1 & ->). destruct (ints_ok size per e a n S1 P LE LA BE BA (V e (or_introl eq_refl)) (V a (or_intror eq_refl))) as (L1 & L2 & H). cbn zeta in *.
  set (w := Nat.max 6 (number_row (2 * size) (Nat.min per n))) in *.
  assert (NE : forall l, length l = (n * size)%nat -> length (elements size l) = n) by (intros l L; unfold elements; rewrite map_length, seq_length, L, Nat.div_mul by lia; reflexivity).
  assert (BD : forall k vs ws ps, (vs = row_of per k (elements size e) \/ vs = row_of per k (elements size a)) -> Numbers (2 * size) 0 vs ws ps -> (length (told ps) <= w)%nat).
  { intros k vs ws ps D X. unfold w. pose proof (number_columns (2 * size) vs ws ps (Nat.min per n) X) as Y. destruct D; subst vs; [pose proof (row_length per k (elements size e)) as Z; rewrite (NE e LE) in Z|pose proof (row_length per k (elements size a)) as Z; rewrite (NE a LA) in Z]; lia. }
  assert (PL : Forall (fun l => exists its, spells l its /\ (columns its <= w)%nat) (fst (print_ints size (per * size) e a))).
  { apply (Forall_nth_lt _ _ _ L1). intros k K. destruct (H k K) as (ps & qs & N1 & A & _ & B). destruct (painted_columns _ _ _ A) as (its & S & C). exists its. split; [exact S|]. rewrite C. eapply BD; [left; reflexivity|exact N1]. }
  assert (PR : Forall (fun l => exists its, spells l its /\ (columns its <= w)%nat) (snd (print_ints size (per * size) e a))).
  { apply (Forall_nth_lt _ _ _ L2). intros k K. destruct (H k K) as (ps & qs & _ & A & N2 & B). destruct (painted_columns _ _ _ B) as (its & S & C). exists its. split; [exact S|]. rewrite C. eapply BD; [right; reflexivity|exact N2]. }
  assert (T6 : (2 <= length (str "expect") <= w)%nat /\ (2 <= length (str "actual") <= w)%nat) by (change (length (str "expect")) with 6%nat; change (length (str "actual")) with 6%nat; lia).
  destruct (split_fits _ _ (str "expect") (str "actual") (N.of_nat per) W sw R w PL PR L1 L2 (proj1 T6) (proj2 T6) ltac:(lia) DG S8 WW W64) as (title & rows & E & GL & G).
  eexists. split; [exact E|]. exists title, rows. split; [reflexivity|]. split; [exact GL|]. intros k K.
  destruct (G k K) as (label & x & y & RL & T). destruct (H k K) as (ps & qs & N1 & A & N2 & B). exists label, (told ps), (told qs), x, y. split; [exact RL|].
  destruct (painted_text _ _ _ A) as (_ & EA). destruct (painted_text _ _ _ B) as (_ & EB). rewrite EA, EB in T. split; [exists ps, qs; auto|exact T].
Qed.
Lemma bit_width : forall vs ws m, length vs = length ws -> (length (told (bit_pieces m vs ws)) = length vs + ((m + length vs + 7) / 8 - (Nat.max 1 ((m + 7) / 8))))%nat.
Proof.
  induction vs as [|v vs IH]; intros [|w ws] m L; try discriminate L.
  - cbn [bit_pieces told map concat length]. rewrite Nat.add_0_r. lia.
  - injection L as L. cbn [bit_pieces]. unfold told in *. rewrite map_app, concat_app, app_length. cbn [map concat snd]. rewrite app_length, (IH ws (S m) L). cbn [length].
    replace (length (if v then str "1" else str "0")) with 1%nat by (destruct v; reflexivity). replace (S m + length vs)%nat with (m + S (length vs))%nat by lia.
    assert (M := Nat.div_mod m 8 ltac:(lia)). assert (MB := Nat.mod_upper_bound m 8 ltac:(lia)).
    assert (Q : ((S m + 7) / 8 = m / 8 + 1)%nat) by (replace (S m + 7)%nat with (m + 1 * 8)%nat by lia; apply Nat.div_add; lia).
    assert (Q2 : ((m + 7) / 8 = m / 8 + if (m mod 8 =? 0)%nat then 0 else 1)%nat).
    { destruct (Nat.eqb_spec (m mod 8) 0) as [Z|Z]; symmetry; [apply (Nat.div_unique (m + 7) 8 _ 7); lia|apply (Nat.div_unique (m + 7) 8 _ (m mod 8 - 1)); lia]. }
    assert (Q3 : ((m + S (length vs) + 7) / 8 >= m / 8 + 1)%nat) by (apply Nat.div_le_lower_bound; lia).
    rewrite Q, Q2. destruct (Nat.eqb_spec (m mod 8) 0) as [Z|Z]; destruct (Nat.eqb_spec m 0) as [Z'|Z']; cbn [negb andb map concat length app snd].
    + subst m. cbn [Nat.div] in *. change (0 / 8)%nat with 0%nat in *. lia.
    + rewrite app_nil_r. change (length (str " ")) with 1%nat. assert (1 <= m / 8)%nat by lia. lia.
    + subst m. exfalso. apply Z. reflexivity.
    + lia.
Qed.
Lemma told_app : forall p q, length (told (p ++ q)) = (length (told p) + length (told q))%nat.
Proof. intros p q. unfold told. rewrite map_app, concat_app, app_length. reflexivity. Qed.
Lemma bits_columns : forall vs ws, length vs = length ws -> (length vs <= 32)%nat -> (length (told (bit_pieces 0 vs ws ++ [missing_bytes (length vs)])) = length vs + 3)%nat.
Proof.
  intros vs ws L B. rewrite told_app, (bit_width vs ws 0 L). unfold missing_bytes, told. cbn [map concat snd app]. rewrite app_nil_r, repeat_length. cbn [Nat.add]. change ((0 + 7) / 8)%nat with 0%nat. change (Nat.max 1 (7 / 8)) with 1%nat.
  destruct (length vs) as [|m]; [reflexivity|]. replace (S m + 7)%nat with (m + 1 * 8)%nat by lia. rewrite Nat.div_add by lia. replace (S m - 1)%nat with m by lia. assert (m / 8 < 4)%nat by (apply Nat.div_lt_upper_bound; lia). lia.
Qed.
Lemma dump_bits_fits : forall W n e a sw, length e = ((n + 7) / 8)%nat -> length a = ((n + 7) / 8)%nat ->
  let R := rows_for 32 n in digits_of (32 * N.of_nat R) sw -> (sw <= 8)%nat -> (2 * Nat.max 6 (Nat.min 32 n + 3) + sw + 6 <= W)%nat -> N.of_nat W < 2 ^ 64 ->
  exists d, memcmp_dump W 1 n e a = Some d /\ one_line_each sw 32 R (bit_texts n e a) d.
Proof.
  intros W n e a sw LE LA. cbn zeta. intros DG S8 WW W64. set (R := rows_for 32 n) in *. set (w := Nat.max 6 (Nat.min 32 n + 3)) in *.
  assert (M : memcmp_dump W 1 n e a = split (fst (print_bits n 4 e a)) (snd (print_bits n 4 e a)) (str "expect") (str "actual") 32 16 W).
  { unfold memcmp_dump. rewrite (surjective_pairing (print_bits n 4 e a)). reflexivity. }
  rewrite M. destruct (bits_ok n e a LE) as (L1 & L2 & H). cbn zeta in *.
  assert (NB : forall l, length (bits_of n l) = n) by (intros l; unfold bits_of; rewrite map_length, seq_length; reflexivity).
  assert (LB : forall k, length (row_of 32 k (bits_of n e)) = length (row_of 32 k (bits_of n a))) by (intros k; unfold row_of; rewrite !firstn_length, !skipn_length, !NB; reflexivity).
  assert (BD : forall k, (length (row_of 32 k (bits_of n e)) <= Nat.min 32 n)%nat) by (intros k; pose proof (row_length 32 k (bits_of n e)) as Z; rewrite NB in Z; exact Z).
  assert (PL : Forall (fun l => exists its, spells l its /\ (columns its <= w)%nat) (fst (print_bits n 4 e a))).
  { apply (Forall_nth_lt _ _ _ L1); intros k K; destruct (H k K) as (A & B). destruct (painted_columns _ _ _ A) as (its & S & C). exists its. split; [exact S|]. rewrite C. specialize (LB k). specialize (BD k). rewrite bits_columns by lia. lia. }
  assert (PR : Forall (fun l => exists its, spells l its /\ (columns its <= w)%nat) (snd (print_bits n 4 e a))).
  { apply (Forall_nth_lt _ _ _ L2); intros k K; destruct (H k K) as (A & B). destruct (painted_columns _ _ _ B) as (its & S & C). exists its. split; [exact S|]. rewrite C. specialize (LB k). specialize (BD k). rewrite bits_columns by lia. lia. }
  assert (T6 : (2 <= length (str "expect") <= w)%nat /\ (2 <= length (str "actual") <= w)%nat) by (change (length (str "expect")) with 6%nat; change (length (str "actual")) with 6%nat; lia).
  destruct (split_fits _ _ (str "expect") (str "actual") 32 W sw R w PL PR L1 L2 (proj1 T6) (proj2 T6) ltac:(lia) DG S8 WW W64) as (title & rows & E & GL & G).
  eexists. split; [exact E|]. exists title, rows. split; [reflexivity|]. split; [exact GL|]. intros k K.
  destruct (G k K) as (label & x & y & RL & T). destruct (H k K) as (A & B). destruct (painted_text _ _ _ A) as (_ & EA). destruct (painted_text _ _ _ B) as (_ & EB). rewrite EA, EB in T.
  exists label. do 4 eexists. split; [exact RL|]. split; [|exact T]. split; reflexivity.
Qed.
