(** Proofs: the detail of a failed string comparison. *)
From Coq Require Import List NArith Bool Arith Lia.
From Verif Require Import Base DiffModel DiffSpec LcsProofs LineModel LineSpec LineProofs LineProofs2 StrdiffModel StrdiffSpec.
Import ListNotations.
Local Open Scope N_scope.

(** ** a line and the characters seen *)
Definition lays (l : line) (cs : list (option bytes * bytes)) : Prop :=
  exists its, spells l its /\ forall st, tone st = None -> map (fun p => (tone (fst p), snd p)) (tagged st its) = cs /\ tone (last_style st its) = None.
Lemma lays_nil : lays [] [].
Proof. exists []. split; [constructor|]. intros st H. split; [reflexivity|exact H]. Qed.
Lemma lays_app : forall a b p q, lays a p -> lays b q -> lays (a ++ b) (p ++ q).
Proof.
  intros a b p q (x & X & H) (y & Y & K). exists (x ++ y). split; [apply spells_app; assumption|]. intros st C.
  destruct (H st C) as (H1 & H2). destruct (K _ H2) as (K1 & K2). rewrite tagged_app, map_app, H1, K1, last_app. auto.
Qed.
Lemma word_spells : forall w cs, w = concat cs -> is_style w = false -> Forall is_char cs -> spells [w] (map Cell cs).
Proof. intros w cs -> S1 F. rewrite <- (app_nil_r (map Cell cs)). apply SWord; [exact S1|exact F|constructor]. Qed.
Lemma tagged_cells_eq : forall cs st, tagged st (map Cell cs) = map (fun c => (st, c)) cs.
Proof. induction cs as [|c cs IH]; intros st; cbn; [reflexivity|]. rewrite IH. reflexivity. Qed.
Lemma last_cells : forall cs st, last_style st (map Cell cs) = st.
Proof. unfold last_style. induction cs as [|c cs IH]; intros st; cbn; auto. Qed.
Lemma lays_word : forall w cs, w = concat cs -> is_style w = false -> Forall is_char cs -> lays [w] (map (fun x => (None, x)) cs).
Proof.
  intros w cs E S1 F. exists (map Cell cs). split; [apply word_spells; assumption|]. intros st C. rewrite tagged_cells_eq, last_cells. split; [|exact C].
  rewrite map_map. apply map_ext. intros x. cbn [fst snd]. rewrite C. reflexivity.
Qed.
Lemma lays_between : forall on off w cs t, w = concat cs -> is_style w = false -> Forall is_char cs -> is_style on = true -> is_style off = true -> tone on = Some t -> tone off = None ->
  lays [on; w; off] (map (fun x => (Some t, x)) cs).
Proof.
  intros on off w cs t E S1 F O1 O2 T1 T2. exists ([Ctl on] ++ map Cell cs ++ [Ctl off]). split.
  - change [on; w; off] with ([on] ++ [w] ++ [off]). apply spells_app; [apply SCtl; [exact O1|constructor]|]. apply spells_app; [apply word_spells; assumption|apply SCtl; [exact O2|constructor]].
  - intros st C. cbn [app tagged]. rewrite tagged_app, tagged_cells_eq. cbn [tagged]. rewrite app_nil_r. split; [rewrite map_map; apply map_ext; intros x; cbn [fst snd]; rewrite T1; reflexivity|].
    change (Ctl on :: map Cell cs ++ [Ctl off]) with ([Ctl on] ++ map Cell cs ++ [Ctl off]). rewrite !last_app. exact T2.
Qed.

(** ** one character *)
Lemma escape_high : forall w, ~ In 10 w -> ~ In 13 w -> ~ In 9 w -> ~ In 0 w -> escape w = w.
Proof.
  intros w A B C D. rewrite escape_spelled. induction w as [|c w IH]; [reflexivity|]. rewrite spelled_cons. destruct (N.eqb_spec c 10); [exfalso; apply A; left; congruence|].
  destruct (N.eqb_spec c 13); [exfalso; apply B; left; congruence|]. destruct (N.eqb_spec c 9); [exfalso; apply C; left; congruence|]. destruct (N.eqb_spec c 0); [exfalso; apply D; left; congruence|].
  cbn [app]. f_equal. apply IH; intros X; [apply A|apply B|apply C|apply D]; right; exact X.
Qed.
Lemma char1 : forall b, b < 192 -> is_char [b].
Proof. intros b H. exists b, []. split; [reflexivity|]. split; [lia|]. unfold lead. destruct (N.ltb_spec b 192); [reflexivity|lia]. Qed.
Lemma good_cases : forall c, good_char c -> c = [10] \/ c = [13] \/ c = [9] \/ (escape c = c /\ drawn false c = [c]).
Proof.
  intros c ((b & r & E & B & L) & Z & H). destruct r as [|b2 r].
  - subst c. destruct (N.eq_dec b 10); [subst; auto|]. destruct (N.eq_dec b 13); [subst; auto|]. destruct (N.eq_dec b 9); [subst; auto|]. right; right; right. split.
    + apply escape_high; cbn; intros [K|[]]; try congruence. apply Z. left. exact K.
    + destruct b as [|b]; [reflexivity|]. do 6 (destruct b as [b|b|]; try reflexivity; try congruence).
  - right; right; right. assert (F : Forall (fun b => 128 <= b) c) by (apply H; subst c; cbn; lia). rewrite Forall_forall in F. split.
    + apply escape_high; intros K; try (specialize (F _ K); lia).
    + subst c. destruct b as [|b]; [reflexivity|]. do 6 (destruct b as [b|b|]; try reflexivity).
Qed.
Lemma char_style : forall c, is_char c -> is_style c = false.
Proof. intros c H. rewrite <- isctrl_style. apply char_not_ctrl, H. Qed.
Lemma drawn_ok : forall c, good_char c -> escape c = concat (drawn false c) /\ Forall is_char (drawn false c) /\ is_style (escape c) = false.
Proof.
  intros c G. destruct (good_cases c G) as [->|[->|[->|(E & D)]]]; try (split; [reflexivity|]; split; [repeat constructor; apply char1; reflexivity|reflexivity]).
  destruct G as (C & _). rewrite E, D. cbn. rewrite app_nil_r. split; [reflexivity|]. split; [constructor; [exact C|constructor]|apply char_style, C].
Qed.
Lemma space_dec : forall c, bytes_eqb c (str " ") = match c with [32] => true | _ => false end.
Proof.
  intros c. destruct (bytes_eqb c (str " ")) eqn:E.
  - apply bytes_eqb_eq in E. subst. reflexivity.
  - destruct c as [|b [|b2 r]]; try reflexivity.
    + destruct b as [|b]; [reflexivity|]. do 6 (destruct b as [b|b|]; try reflexivity). vm_compute in E. discriminate.
    + destruct b as [|b]; [reflexivity|]. do 6 (destruct b as [b|b|]; try reflexivity).
Qed.
Lemma drawn_nospace : forall cf c, match c with [32] => true | _ => false end && cf = false -> drawn cf c = drawn false c.
Proof. intros cf c H. destruct c as [|b r]; [reflexivity|]. destruct cf; [|reflexivity]. rewrite andb_true_r in H. destruct r; destruct b as [|b]; try reflexivity; do 6 (destruct b as [b|b|]; try reflexivity); discriminate. Qed.
Lemma fmt_char_ok : forall cf m style c, good_char c -> tone ([27; 123] ++ style ++ [125]) = Some style ->
  lays (fmt_char cf m style c) (map (fun x => (hue cf m style c, x)) (drawn cf c)).
Proof.
  intros cf m style c G T. unfold fmt_char, hue. rewrite space_dec. rewrite (andb_comm cf). destruct (match c with [32] => true | _ => false end && cf) eqn:E.
  - assert (c = [32] /\ cf = true).
    { apply andb_prop in E. destruct E as (E & ->). rewrite <- space_dec in E. apply bytes_eqb_eq in E. auto. }
    destruct H as (-> & ->). apply (lays_between _ _ _ [[0xe2; 0x80; 0xa7]]); try reflexivity. repeat constructor. exists 0xe2, [0x80; 0xa7]. split; [reflexivity|]. split; reflexivity.
  - rewrite (drawn_nospace cf c E). destruct (drawn_ok c G) as (A & B & C). destruct m.
    + apply lays_word; assumption.
    + apply lays_between; try assumption; reflexivity.
Qed.
Lemma fmt_line_ok : forall cf style, tone ([27; 123] ++ style ++ [125]) = Some style -> forall ms cs, length ms = length cs -> Forall good_char cs -> lays (fmt_line cf style cs ms) (diff_cells cf style ms cs).
Proof.
  intros cf style T. unfold fmt_line. induction ms as [|m ms IH]; intros [|c cs] L F; try discriminate; cbn [combine map concat diff_cells]; [apply lays_nil|].
  inversion F as [|? ? G F']; subst. apply lays_app; [apply fmt_char_ok; assumption|apply IH; [cbn in L; lia|exact F']].
Qed.

(** ** titles and rows *)
Lemma titled_ok : forall t style, t = str "expect" \/ t = str "actual" -> style = str "green" \/ style = str "red" -> titled (title_line t style) t style /\ line_width (title_line t style) = Some 8%nat.
Proof.
  intros t style Ht Hs. split; [|destruct Ht as [->| ->], Hs as [->| ->]; reflexivity].
  assert (PC : forall w, Forall plain w -> w = concat (map (fun c => [c]) w) /\ is_style w = false /\ Forall is_char (map (fun c => [c]) w)).
  { intros w F. split; [clear F; induction w; cbn; congruence|]. split; [rewrite <- isctrl_style; apply plain_not_ctrl, F|]. induction F as [|c w (A & B & C) F IH]; constructor; [apply char1; lia|exact IH]. }
  assert (L : lays (title_line t style) (map (fun c => (Some (str "dark gray"), [c])) t ++ map (fun c => (Some style, [c])) (str "> "))).
  { unfold title_line. apply lays_app.
    - assert (F : Forall plain t) by (destruct Ht as [->| ->]; repeat constructor; discriminate). destruct (PC t F) as (A & B & C).
      rewrite <- (map_map (fun c => [c]) (fun x => (Some (str "dark gray"), x))). apply lays_between; try assumption; reflexivity.
    - assert (F : Forall plain (str "> ")) by (repeat constructor; discriminate). destruct (PC _ F) as (A & B & C).
      rewrite <- (map_map (fun c => [c]) (fun x => (Some style, x))). apply lays_between; try assumption; destruct Hs as [->| ->]; reflexivity. }
  destruct L as (its & S1 & H). exists its. split; [exact S1|]. destruct (H [] eq_refl) as (A & B). split; [exact A|exact B].
Qed.
Lemma unify_tl : forall ut dt n us ds i, unify ut dt us ds n (S i) = unify ut dt (tl us) (tl ds) n i.
Proof.
  intros ut dt. induction n as [|n IH]; intros us ds i; [reflexivity|]. cbn [unify]. rewrite IH. f_equal; [|f_equal].
  - destruct us as [|u us]; [destruct i; reflexivity|]. cbn [tl length nth]. change (S i <? S (length us))%nat with (i <? length us)%nat. reflexivity.
  - destruct ds as [|u ds]; [destruct i; reflexivity|]. cbn [tl length nth]. change (S i <? S (length ds))%nat with (i <? length ds)%nat. reflexivity.
Qed.
Lemma unify_weave : forall ut dt n us ds, (length us <= n)%nat -> (length ds <= n)%nat -> unify ut dt us ds n 0 = weave (map (app ut) us) (map (app dt) ds).
Proof.
  intros ut dt. induction n as [|n IH]; intros us ds Hu Hd.
  - destruct us; [|cbn in Hu; lia]. destruct ds; [reflexivity|cbn in Hd; lia].
  - cbn [unify]. rewrite unify_tl, IH by (destruct us, ds; cbn in *; lia). destruct us as [|u us], ds as [|d ds]; try reflexivity.
    cbn. destruct us; reflexivity.
Qed.
Lemma broken_ok : forall t style l cs W, t = str "expect" \/ t = str "actual" -> style = str "green" \/ style = str "red" -> lays l cs -> (10 <= W)%nat ->
  exists ls parts, break_behind (title_line t style) l W = Some ls /\ Forall2 (filled (W - 8)) ls parts /\ concat (map seen parts) = cs /\ needed (W - 8) parts /\ ls <> [].
Proof.
  intros t style l cs W Ht Hs (its & S1 & H) HW. destruct (titled_ok t style Ht Hs) as (_ & TW). unfold break_behind. rewrite TW. destruct (Nat.leb_spec 8 W); [|lia].
  destruct (break_ok (W - 8) l its S1) as (ls & parts & E & F & T & ND). { apply Forall_forall. intros c _. pose proof (char_le2 c). lia. }
  exists ls, parts. split; [exact E|]. split; [exact F|]. split.
  - destruct (H [] eq_refl) as (A & _). rewrite <- A, <- T. unfold seen. clear. induction parts as [|p ps IH]; [reflexivity|]. cbn [map concat]. rewrite map_app, IH. reflexivity.
  - split; [exact ND|]. intros ->. unfold line_break in E. destruct (words_loop (W - 8) [] l [] []) as [(x & y)|]; [|discriminate]. destruct (pad_to (W - 8) y); [|discriminate]. destruct x; discriminate.
Qed.
Lemma good_is : forall cs, Forall good_char cs -> Forall is_char cs.
Proof. intros cs F. eapply Forall_impl; [|exact F]. intros c (A & _). exact A. Qed.
Lemma strcmp_detail_ok : forall verbose cf W caseless ce ca, Forall good_char ce -> Forall good_char ca -> (10 <= W)%nat -> N.of_nat (Nat.min (length ce) (length ca)) < 2 ^ 24 ->
  if (5 <=? verbose) || (8 <? list_sum (map cellw ce))%nat || (8 <? list_sum (map cellw ca))%nat then
    exists l1 l2 te ta us ds pe pa,
      strcmp_detail verbose cf W caseless (concat ce) (concat ca) = Some (weave (map (app te) us) (map (app ta) ds)) /\
      titled te (str "expect") (str "green") /\ titled ta (str "actual") (str "red") /\
      Forall2 (filled (W - 8)) us pe /\ Forall2 (filled (W - 8)) ds pa /\ needed (W - 8) pe /\ needed (W - 8) pa /\
      concat (map seen pe) = diff_cells cf (str "green") l1 ce /\ concat (map seen pa) = diff_cells cf (str "red") l2 ca /\
      length l1 = length ce /\ length l2 = length ca /\ Forall2 (fun a b => fold_str caseless a = fold_str caseless b) (select l1 ce) (select l2 ca) /\
      (forall u v, subseq u ce -> subseq v ca -> Forall2 (fun a b => fold_str caseless a = fold_str caseless b) u v -> (length u <= length (select l1 ce))%nat)
  else strcmp_detail verbose cf W caseless (concat ce) (concat ca) = Some [].
Proof.
  intros verbose cf W caseless ce ca FE FA HW HL. unfold strcmp_detail. rewrite (width_chars ce (good_is _ FE)), (width_chars ca (good_is _ FA)).
  destruct ((5 <=? verbose) || (8 <? list_sum (map cellw ce))%nat || (8 <? list_sum (map cellw ca))%nat); [|reflexivity].
  rewrite (disperse_chars ce (good_is _ FE)), (disperse_chars ca (good_is _ FA)). destruct (lcs_strings_correct caseless ce ca HL) as (l1 & l2 & -> & L1 & L2 & C & M).
  destruct (broken_ok (str "expect") (str "green") _ _ W (or_introl eq_refl) (or_introl eq_refl) (fmt_line_ok cf (str "green") eq_refl l1 ce L1 FE) HW) as (us & pe & EU & FU & SU & NU & _).
  destruct (broken_ok (str "actual") (str "red") _ _ W (or_intror eq_refl) (or_intror eq_refl) (fmt_line_ok cf (str "red") eq_refl l2 ca L2 FA) HW) as (ds & pa & ED & FD & SD & ND & _).
  exists l1, l2, (title_line (str "expect") (str "green")), (title_line (str "actual") (str "red")), us, ds, pe, pa. unfold unified. cbn zeta. rewrite EU, ED.
  split; [f_equal; apply unify_weave; lia|]. split; [apply titled_ok; auto|]. split; [apply titled_ok; auto|]. do 9 (split; [assumption|]). exact M.
Qed.
Lemma drawn_all : forall cs, Forall good_char cs -> escape (concat cs) = concat (concat (map (drawn false) cs)) /\ Forall is_char (concat (map (drawn false) cs)).
Proof.
  intros cs F. rewrite escape_spelled. induction F as [|c cs G F IH]; [split; [reflexivity|constructor]|]. cbn [concat map]. rewrite spelled_app, concat_app, <- escape_spelled.
  destruct (drawn_ok c G) as (A & B & _). rewrite A. destruct IH as (-> & IH2). split; [reflexivity|apply Forall_app; auto].
Qed.
Lemma no_nul : forall cs, Forall good_char cs -> ~ In 0 (concat cs).
Proof. intros cs F H. apply in_concat in H. destruct H as (c & C & Z). rewrite Forall_forall in F. destruct (F c C) as (_ & N0 & _). exact (N0 Z). Qed.
Lemma drawn_style : forall w, ~ In 0 w -> is_style w = false -> is_style (escape w) = false.
Proof.
  intros w NZ H. rewrite escape_spelled. destruct w as [|x [|y r]]; [reflexivity| |].
  - rewrite spelled_cons. destruct (x =? 10); [reflexivity|]. destruct (x =? 13); [reflexivity|]. destruct (x =? 9); [reflexivity|]. destruct (x =? 0); reflexivity.
  - rewrite spelled_cons. destruct (x =? 10); [reflexivity|]. destruct (x =? 13); [reflexivity|]. destruct (x =? 9); [reflexivity|]. destruct (N.eqb_spec x 0) as [Z|Z]; [exfalso; apply NZ; left; congruence|].
    rewrite spelled_cons. destruct (y =? 10); [cbn; apply andb_false_r|]. destruct (y =? 13); [cbn; apply andb_false_r|]. destruct (y =? 9); [cbn; apply andb_false_r|].
    destruct (N.eqb_spec y 0) as [Y|Y]; [exfalso; apply NZ; right; left; congruence|]. exact H.
Qed.
Lemma seen_none : forall parts X, concat (map seen parts) = map (fun x => (None, x)) X -> concat (map cells parts) = X.
Proof.
  intros parts X H. apply (f_equal (map snd)) in H. rewrite map_map in H. cbn [snd] in H. rewrite map_id in H. rewrite <- H. clear. induction parts as [|p ps IH]; [reflexivity|]. cbn [map concat]. rewrite map_app, <- IH. f_equal.
  unfold seen. rewrite map_map. cbn [snd]. rewrite tagged_cells. reflexivity.
Qed.
Lemma strfind_detail_ok : forall W ce ca, Forall good_char ce -> Forall good_char ca -> is_style (concat ce) = false -> is_style (concat ca) = false -> (10 <= W)%nat ->
  if (16 <? list_sum (map cellw ce))%nat || (16 <? list_sum (map cellw ca))%nat then
    exists te ta us ds pe pa, strfind_detail W (concat ce) (concat ca) = Some (behind te us ++ behind ta ds) /\
      titled te (str "expect") (str "green") /\ titled ta (str "actual") (str "red") /\
      Forall2 (filled (W - 8)) us pe /\ Forall2 (filled (W - 8)) ds pa /\ needed (W - 8) pe /\ needed (W - 8) pa /\
      concat (map seen pe) = map (fun x => (None, x)) (concat (map (drawn false) ce)) /\ concat (map seen pa) = map (fun x => (None, x)) (concat (map (drawn false) ca)) /\ us <> [] /\ ds <> []
  else strfind_detail W (concat ce) (concat ca) = Some [].
Proof.
  intros W ce ca FE FA SE SA HW. unfold strfind_detail. rewrite (width_chars ce (good_is _ FE)), (width_chars ca (good_is _ FA)).
  destruct ((16 <? list_sum (map cellw ce))%nat || (16 <? list_sum (map cellw ca))%nat); [|reflexivity].
  destruct (drawn_all ce FE) as (E1 & E2), (drawn_all ca FA) as (A1 & A2).
  destruct (broken_ok (str "expect") (str "green") _ _ W (or_introl eq_refl) (or_introl eq_refl) (lays_word _ _ E1 (drawn_style _ (no_nul _ FE) SE) E2) HW) as (us & pe & EU & FU & SU & NU & ZU).
  destruct (broken_ok (str "actual") (str "red") _ _ W (or_intror eq_refl) (or_intror eq_refl) (lays_word _ _ A1 (drawn_style _ (no_nul _ FA) SA) A2) HW) as (ds & pa & ED & FD & SD & ND & ZD).
  destruct (titled_ok (str "expect") (str "green") (or_introl eq_refl) (or_introl eq_refl)) as (TE & WE), (titled_ok (str "actual") (str "red") (or_intror eq_refl) (or_intror eq_refl)) as (TA & WA).
  exists (title_line (str "expect") (str "green")), (title_line (str "actual") (str "red")), us, ds, pe, pa. unfold seperate, prefix_break. rewrite EU, ED, WE, WA.
  split; [reflexivity|]. do 9 (split; [assumption|]). exact ZD.
Qed.
