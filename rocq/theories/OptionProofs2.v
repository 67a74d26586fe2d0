From Coq Require Import List NArith Bool Arith Lia.
From Verif Require Import Base OptionModel OptionSpec OptionProofs.
Import ListNotations.
Local Open Scope N_scope.

Lemma set_get : forall s k v k', set s k v k' = if key_eq_dec k k' then v else s k'. Proof. reflexivity. Qed.
Definition nodigit (j : bytes) : Prop := match j with [] => True | c :: _ => digit c = false end.
Lemma span_numeral : forall d j, forallb digit d = true -> nodigit j -> span (d ++ j) = (d, j).
Proof.
  induction d as [|c d IH]; intros j F N; cbn [app span].
  - destruct j as [|x j]; auto. cbn in N. cbn [span]. rewrite N. reflexivity.
  - cbn in F. apply andb_true_iff in F. destruct F as [D F]. rewrite D, IH; auto.
Qed.
Lemma atoi_number : forall d n, fold_left (fun n c => 10 * n + (c - 48)) d n = number_from n d.
Proof. induction d as [|c d IH]; intros n; auto. cbn [fold_left number_from]. apply IH. Qed.
Lemma letter_nodigit : forall w t, attached w t -> forall j, nodigit (t ++ j).
Proof.
  intros w t A j. destruct A as [k c I|k c I|k c n d I _]; cbn in I; repeat (destruct I as [E|I]; [injection E; intros; subst; reflexivity|]); contradiction.
Qed.
Lemma trailing_nodigit : forall w t args, trailing w t args -> nodigit t.
Proof.
  intros w t args T. destruct T as [w t A|k c n I|k c n d I N|incl ps ts F U|ns ts F U|ns ts F U|ns ts F U| |p U L| |q t A U]; try reflexivity.
  - pose proof (letter_nodigit w t A []) as H. rewrite app_nil_r in H. auto.
  - cbn in I; repeat (destruct I as [E|I]; [injection E; intros; subst; reflexivity|]); contradiction.
  - cbn in I; repeat (destruct I as [E|I]; [injection E; intros; subst; reflexivity|]); contradiction.
  - destruct incl; reflexivity.
Qed.
Lemma nodigit_concat : forall ws ts t, Forall2 attached ws ts -> nodigit t -> nodigit (concat ts ++ t).
Proof. intros ws ts t F N. destruct F as [|w x ws ts A F]; auto. cbn [concat]. rewrite <- app_assoc. apply (letter_nodigit w x A). Qed.

(** the step of a switch written within an argument *)
Lemma number_value : forall k dflt d j rest s, numeral d -> nodigit j -> number k dflt (d ++ j) rest s = (Done (set s k (VN (number_from 0 d))), j, rest).
Proof.
  intros k dflt d j rest s (NE & F & LE) N. unfold number, extract_number. rewrite (span_numeral d j F N). unfold atoi. rewrite atoi_number. destruct d as [|c d]; [congruence|]. apply N.leb_le in LE. rewrite LE. reflexivity.
Qed.
Lemma toggle_get : forall s k k', sane s -> match defaults k with VB _ => True | _ => False end -> toggle s k k' = match s k' with VB b => if key_eq_dec k k' then VB (negb b) else VB b | v => v end.
Proof.
  intros s k k' SA D. unfold toggle. pose proof (SA k) as H. destruct (defaults k) as [db|dn|ds|dl] eqn:DK; try contradiction. destruct (s k) as [b'|n|x|l] eqn:E; try contradiction. rewrite set_get. destruct (key_eq_dec k k') as [<-|NE].
  - rewrite E. reflexivity.
  - destruct (s k'); reflexivity.
Qed.
Lemma attached_step : forall path w c d j rest s, attached w (c :: d) -> nodigit j -> sane s -> exists s', step path c (d ++ j) rest s = (Done s', j, rest) /\ (forall k, s' k = effect path w k (s k)) .
Proof.
  intros path w c d j rest s A N SA. inversion A as [k c' I E1 E2|k c' I E1 E2|k c' n d' I NU E1 E2]; subst.
  - exists (set s k (VB true)). split; [|intros k'; reflexivity]. cbn in I. repeat (destruct I as [E|I]; [injection E; intros; subst; reflexivity|]). contradiction.
  - exists (toggle s k). split.
    + cbn in I. repeat (destruct I as [E|I]; [injection E; intros; subst; reflexivity|]). contradiction.
    + intros k'. rewrite toggle_get; auto; [|cbn in I; repeat (destruct I as [E|I]; [injection E; intros; subst; exact Logic.I|]); contradiction]. cbn [effect]. destruct (s k'); auto.
  - exists (set s k (VN (number_from 0 d))). split; [|intros k'; reflexivity].
    cbn in I. repeat (destruct I as [E|I]; [injection E; intros; subst; unfold step; cbn [N.eqb Pos.eqb]; apply number_value; auto|]). contradiction.
Qed.
Lemma sane_effect_attached : forall path w t k v, attached w t -> sane_value (defaults k) v -> sane_value (defaults k) (effect path w k v).
Proof.
  intros path w t k v A S. destruct A as [k' c I|k' c I|k' c n d I _]; cbn [effect].
  - destruct (key_eq_dec k' k) as [<-|]; auto. cbn in I. repeat (destruct I as [E|I]; [injection E; intros; subst; exact Logic.I|]). contradiction.
  - destruct v; auto. destruct (key_eq_dec k' k); auto.
  - destruct (key_eq_dec k' k) as [<-|]; auto. cbn in I. repeat (destruct I as [E|I]; [injection E; intros; subst; exact Logic.I|]). contradiction.
Qed.

(** words *)
Definition limit (l a : list bytes) : list bytes := firstn 127 (l ++ a).
Lemma limit_app : forall l a b, limit (limit l a) b = limit l (a ++ b).
Proof.
  intros l a b. unfold limit. rewrite (app_assoc l a b). generalize (l ++ a). intros x. rewrite !firstn_app, firstn_firstn, Nat.min_id. destruct (Nat.le_gt_cases (length x) 127) as [H|H].
  - rewrite firstn_all2 by auto. reflexivity.
  - rewrite firstn_length. replace (127 - Nat.min 127 (length x))%nat with 0%nat by lia. replace (127 - length x)%nat with 0%nat by lia. reflexivity.
Qed.
Lemma limit_nil : forall l, (length l <= 127)%nat -> limit l [] = l. Proof. intros l L. unfold limit. rewrite app_nil_r. apply firstn_all2. auto. Qed.
Lemma limit_length : forall l a, (length (limit l a) <= 127)%nat. Proof. intros. unfold limit. rewrite firstn_length. lia. Qed.
Lemma append_get : forall s k x k', sane s -> match defaults k with VL _ => True | _ => False end -> append s k x k' = match s k' with VL l => VL (limit l (if key_eq_dec k k' then [x] else [])) | v => v end.
Proof.
  intros s k x k' SA D. unfold append. pose proof (SA k) as H. destruct (defaults k) as [db|dn|ds|dl] eqn:DK; try contradiction. destruct (s k) as [b'|n|y|l] eqn:E; try contradiction. cbn in H.
  destruct (key_eq_dec k k') as [<-|NE].
  - rewrite E. destruct (Nat.ltb_spec (length l) 127) as [B|B].
    + rewrite set_get. destruct (key_eq_dec k k); [|congruence]. f_equal. symmetry. apply firstn_all2. rewrite app_length. cbn. lia.
    + rewrite E. f_equal. unfold limit. rewrite firstn_app. replace (127 - length l)%nat with 0%nat by lia. change (firstn 0 [x]) with (@nil (list N)). rewrite app_nil_r. symmetry. apply firstn_all2. auto.
  - assert (G : (if (length l <? 127)%nat then set s k (VL (l ++ [x])) else s) k' = s k') by (destruct (length l <? 127)%nat; auto; rewrite set_get; destruct (key_eq_dec k k'); congruence).
    rewrite G. pose proof (SA k') as H2. destruct (s k'); auto. f_equal. symmetry. apply limit_nil. destruct (defaults k'); cbn in H2; contradiction || auto.
Qed.
Lemma abbrev_in : forall c w n, abbrev c w n -> In n c. Proof. intros c w n (l & r & -> & _). apply in_elt. Qed.
Lemma split_eq_none : forall p, ~ In 61 p -> split_eq p = None.
Proof. induction p as [|c p IH]; intros N; auto. cbn [split_eq]. replace (c =? 61) with false by (symmetry; apply N.eqb_neq; intros ->; apply N; left; auto). rewrite IH; auto. intros I. apply N. right. auto. Qed.
Lemma split_eq_some : forall a p, ~ In 61 a -> split_eq (a ++ [61] ++ p) = Some (a, p).
Proof. induction a as [|c a IH]; intros p N; auto. cbn [app split_eq]. replace (c =? 61) with false by (symmetry; apply N.eqb_neq; intros ->; apply N; left; auto). cbn [app] in IH. rewrite IH; auto. intros I. apply N. right. auto. Qed.
Lemma pattern_ok : forall (incl : bool) p t s, pat_text p t -> pattern (if incl then include_keys else exclude_keys) t s = Done (append s (field_key incl (fst p)) (snd p)).
Proof.
  intros incl p t s T. destruct T as [p N|f a n p A L N L64].
  - unfold pattern. rewrite (split_eq_none p N). destruct incl; reflexivity.
  - unfold pattern. rewrite (split_eq_some a p N). replace (64 <=? length a)%nat with false by (symmetry; apply Nat.leb_gt; auto).
    pose proof (abbrev_in _ _ _ A) as I. apply candidate_found in A; [|cbn; lia]. change (map fst fields) with [str "file"; str "suite"; str "case"; str "tags"] in A. 
    cbn in I. subst f. repeat (destruct I as [<-|I]; [destruct incl; unfold include_keys, exclude_keys; rewrite A; reflexivity|]). contradiction.
Qed.
Lemma field_list : forall incl f, match defaults (field_key incl f) with VL _ => True | _ => False end. Proof. intros [|] [| | | |]; exact Logic.I. Qed.
Lemma sane_lists : forall s s' (g : key -> list bytes), sane s -> (forall k, s' k = match s k with VL l => VL (limit l (g k)) | v => v end) -> sane s'.
Proof. intros s s' g SA H k. rewrite H. pose proof (SA k) as K. destruct (s k); auto. destruct (defaults k); auto. cbn. apply limit_length. Qed.
Lemma patterns_ok : forall (incl : bool) ps ts, Forall2 pat_text ps ts -> forall s, sane s -> exists s', each (pattern (if incl then include_keys else exclude_keys)) ts s = Done s' /\
  forall k, s' k = match s k with VL l => VL (limit l (map snd (filter (fun p => if key_eq_dec (field_key incl (fst p)) k then true else false) ps))) | v => v end.
Proof.
  intros incl ps ts F. induction F as [|p t ps ts P F IH]; intros s SA.
  - exists s. split; auto. intros k. pose proof (SA k) as H. destruct (s k) as [| | |l]; auto. f_equal. symmetry. apply limit_nil. destruct (defaults k); cbn in H; contradiction || auto.
  - cbn [each]. rewrite (pattern_ok incl p t s P). assert (GET : forall k, append s (field_key incl (fst p)) (snd p) k = match s k with VL l => VL (limit l (if key_eq_dec (field_key incl (fst p)) k then [snd p] else [])) | v => v end).
    { intros k. apply append_get; auto. apply field_list. }
    destruct (IH (append s (field_key incl (fst p)) (snd p))) as (s' & E & H).
    { apply (sane_lists s _ (fun k => if key_eq_dec (field_key incl (fst p)) k then [snd p] else []) SA GET). }
    exists s'. split; auto. intros k. rewrite H, GET. destruct (s k) as [| | |l]; auto. rewrite limit_app. f_equal. f_equal. cbn [filter]. destruct (key_eq_dec (field_key incl (fst p)) k); reflexivity.
Qed.
Lemma or_bit_get : forall s k b n, s k = VN n -> forall k', or_bit s k b k' = if key_eq_dec k k' then VN (N.lor n b) else s k'.
Proof. intros s k b n E k'. unfold or_bit. rewrite E. apply set_get. Qed.
Lemma bits_ok : forall k bits f, (forall w n s, abbrev (map fst bits) w n -> f w s = Done (or_bit s k (look 0 bits n))) -> forall ts ns, Forall2 (abbrev (map fst bits)) ts ns -> forall s m, s k = VN m ->
  exists s', each f ts s = Done s' /\ forall k', s' k' = if key_eq_dec k k' then VN (fold_left N.lor (map (look 0 bits) ns) m) else s k'.
Proof.
  intros k bits f FF ts ns F. induction F as [|t n ts ns A F IH]; intros s m E.
  - exists s. split; auto. intros k'. cbn. destruct (key_eq_dec k k') as [<-|]; auto.
  - cbn [each]. rewrite (FF t n s A). destruct (IH (or_bit s k (look 0 bits n)) (N.lor m (look 0 bits n))) as (s' & E' & H).
    { rewrite (or_bit_get s k _ m E). destruct (key_eq_dec k k); congruence. }
    exists s'. split; auto. intros k'. rewrite H, (or_bit_get s k _ m E). cbn [map fold_left]. destruct (key_eq_dec k k'); auto.
Qed.
Lemma list_word_ok : forall w n s, abbrev (map fst list_bits) w n -> list_word w s = Done (or_bit s Klists (look 0 list_bits n)).
Proof.
  intros w n s A. pose proof (abbrev_in _ _ _ A) as I. apply candidate_found in A; [|cbn; lia]. unfold list_word. change (map fst list_bits) with [str "suite"; str "case"; str "todo"; str "tags"] in A. rewrite A. cbn in I. repeat (destruct I as [<-|I]; [reflexivity|]). contradiction.
Qed.
Lemma shuffle_word_ok : forall w n s, abbrev (map fst shuffle_bits) w n -> shuffle_word w s = Done (or_bit s Kshuffles (look 0 shuffle_bits n)).
Proof.
  intros w n s A. pose proof (abbrev_in _ _ _ A) as I. apply candidate_found in A; [|cbn; lia]. unfold shuffle_word. change (map fst shuffle_bits) with [str "random"; str "name"; str "file"; str "reverse"] in A. rewrite A. cbn in I. repeat (destruct I as [<-|I]; [reflexivity|]). contradiction.
Qed.
Lemma warning_word_ok : forall w n s, abbrev (map fst warning_keys) w n -> warning_word w s = Done (set s (look Kcolorful warning_keys n) (VB true)).
Proof.
  intros w n s A. pose proof (abbrev_in _ _ _ A) as I. apply candidate_found in A; [|cbn; lia]. unfold warning_word. change (map fst warning_keys) with [str "exception"; str "uncaught"; str "leak"; str "violate"; str "asymmetric_free"] in A. rewrite A. cbn in I. repeat (destruct I as [<-|I]; [reflexivity|]). contradiction.
Qed.
Lemma quote_word_ok : forall w n s, abbrev (map fst quotes) w n -> quote_word w s = Done (set s Kquote (VS (look [] quotes n))).
Proof.
  intros w n s A. pose proof (abbrev_in _ _ _ A) as I. apply candidate_found in A; [|cbn; lia]. unfold quote_word. change (map fst quotes) with [[39]; str "single"; [34]; str "double"; [92; 34]] in A. rewrite A. cbn in I. repeat (destruct I as [<-|I]; [reflexivity|]). contradiction.
Qed.
Lemma warnings_ok : forall ts ns, Forall2 (abbrev (map fst warning_keys)) ts ns -> forall s, exists s', each warning_word ts s = Done s' /\
  forall k, s' k = if existsb (fun n => if key_eq_dec (look Kcolorful warning_keys n) k then true else false) ns then VB true else s k.
Proof.
  intros ts ns F. induction F as [|t n ts ns A F IH]; intros s; [exists s; split; auto|]. cbn [each]. rewrite (warning_word_ok t n s A). destruct (IH (set s (look Kcolorful warning_keys n) (VB true))) as (s' & E & H).
  exists s'. split; auto. intros k. rewrite H, set_get. cbn [existsb]. destruct (key_eq_dec (look Kcolorful warning_keys n) k); cbn [orb]; [destruct (existsb _ ns)|]; auto.
Qed.
Lemma if_none_get : forall s k m d, s k = VN m -> forall k', if_none s k d k' = if key_eq_dec k k' then VN (if m =? 0 then d else m) else s k'.
Proof. intros s k m d E k'. unfold if_none. rewrite E. destruct (m =? 0); [apply set_get|]. destruct (key_eq_dec k k') as [<-|]; auto. Qed.
Lemma strings_exact : forall ts rest, Forall undashed ts -> dashed rest -> extract_strings (ts ++ rest) = (ts, rest).
Proof. induction 1 as [|t ts U F IH]; intros D; cbn [app]; [apply strings_dashed; auto|]. rewrite strings_undashed by auto. rewrite IH by auto. reflexivity. Qed.
Lemma number_none : forall k dflt rest s, dashed rest -> number k dflt [] rest s = (Done (set s k (VN dflt)), [], rest).
Proof. intros k dflt rest s D. unfold number, extract_number. cbn [span]. destruct rest as [|a rest]; auto. destruct D as (r & ->). reflexivity. Qed.
Lemma number_next : forall k dflt d rest s, numeral d -> number k dflt [] (d :: rest) s = (Done (set s k (VN (number_from 0 d))), [], rest).
Proof.
  intros k dflt d rest s (NE & F & LE). change (forallb ten d = true) with (forallb digit d = true) in F. unfold number, extract_number. cbn [span]. unfold atoi. rewrite atoi_number, F. replace (length d =? 0)%nat with false by (destruct d; [congruence|reflexivity]). cbn [negb andb]. apply N.leb_le in LE. rewrite LE. reflexivity.
Qed.
Lemma string_dashed : forall rest, dashed rest -> extract_string rest = None. Proof. intros [|a l] D; auto. destruct D as (r & ->). reflexivity. Qed.
Lemma trailing_step : forall path w c d args rest s, trailing w (c :: d) args -> dashed rest -> sane s -> (length path <= 245)%nat -> exists s', step path c d (args ++ rest) s = (Done s', [], rest) /\ (forall k, s' k = effect path w k (s k)).
Proof.
  intros path w c d args rest s T D SA LP. inversion T as [w' t A E1 E2 E3|k c' n I E1 E2 E3|k c' n d' I NU E1 E2 E3|incl ps ts F U E1 E2 E3|ns ts F U E1 E2 E3|ns ts F U E1 E2 E3|ns ts F U E1 E2 E3|E1 E2 E3|p U L E1 E2 E3|E1 E2 E3|q t A U E1 E2 E3]; subst; cbn [app].
  - destruct (attached_step path w c d [] rest s A Logic.I SA) as (s' & E & H). rewrite app_nil_r in E. exists s'. auto.
  - exists (set s k (VN (num_default k))). split; [|intros; reflexivity]. cbn in I. repeat (destruct I as [E|I]; [injection E; intros; subst; unfold step; cbn [N.eqb Pos.eqb]; apply number_none; auto|]). contradiction.
  - exists (set s k (VN (number_from 0 d'))). split; [|intros; reflexivity]. cbn in I. repeat (destruct I as [E|I]; [injection E; intros; subst; unfold step; cbn [N.eqb Pos.eqb]; apply number_next; auto|]). contradiction.
  - destruct (patterns_ok incl ps args F s SA) as (s' & E & H). exists s'. split.
    + destruct incl; unfold step; cbn [N.eqb Pos.eqb]; unfold words; rewrite (strings_exact args rest U D), E; reflexivity.
    + intros k. rewrite H. cbn [effect]. destruct (s k); reflexivity.
  - pose proof (SA Klists) as SL. destruct (s Klists) as [|m| |] eqn:EM; try contradiction. destruct (bits_ok Klists list_bits list_word list_word_ok args ns F s m EM) as (s' & E & H).
    exists (if_none s' Klists 0x1110). split; [unfold step; cbn [N.eqb Pos.eqb]; unfold words; rewrite (strings_exact args rest U D), E; reflexivity|].
    intros k. rewrite (if_none_get s' Klists (fold_left N.lor (map (look 0 list_bits) ns) m)) by (rewrite H; reflexivity). rewrite H. cbn [effect]. destruct (key_eq_dec Klists k) as [<-|]; [rewrite EM; reflexivity|]. destruct (s k); reflexivity.
  - pose proof (SA Kshuffles) as SL. destruct (s Kshuffles) as [|m| |] eqn:EM; try contradiction. destruct (bits_ok Kshuffles shuffle_bits shuffle_word shuffle_word_ok args ns F s m EM) as (s' & E & H).
    exists (if_none s' Kshuffles 0x10). split; [unfold step; cbn [N.eqb Pos.eqb]; unfold words; rewrite (strings_exact args rest U D), E; reflexivity|].
    intros k. rewrite (if_none_get s' Kshuffles (fold_left N.lor (map (look 0 shuffle_bits) ns) m)) by (rewrite H; reflexivity). rewrite H. cbn [effect]. destruct (key_eq_dec Kshuffles k) as [<-|]; [rewrite EM; reflexivity|]. destruct (s k); reflexivity.
  - destruct (warnings_ok args ns F s) as (s' & E & H). exists s'. split; [unfold step; cbn [N.eqb Pos.eqb]; unfold words; rewrite (strings_exact args rest U D), E; reflexivity|]. intros k. rewrite H. reflexivity.
  - exists (set s Kjunit_path (VS (path ++ str ".junit.xml"))). split; [|intros; reflexivity]. unfold step. cbn [N.eqb Pos.eqb]. unfold output. replace (245 <? length path)%nat with false by (symmetry; apply Nat.ltb_ge; auto). rewrite string_dashed; auto.
  - exists (set s Kjunit_path (VS p)). split; [|intros; reflexivity]. unfold step. cbn [N.eqb Pos.eqb]. unfold output. replace (245 <? length path)%nat with false by (symmetry; apply Nat.ltb_ge; auto). rewrite string_undashed by auto. replace (255 <? length p)%nat with false by (symmetry; apply Nat.ltb_ge; auto). reflexivity.
  - exists (set s Kquote (VS [92; 34])). split; [|intros; reflexivity]. unfold step. cbn [N.eqb Pos.eqb]. cbv zeta. rewrite string_dashed; auto.
  - exists (set (set s Kquote (VS [92; 34])) Kquote (VS (look [] quotes q))). split; [|intros k; rewrite !set_get; cbn [effect]; destruct (key_eq_dec Kquote k); reflexivity]. unfold step. cbn [N.eqb Pos.eqb]. cbv zeta. rewrite string_undashed by auto. rewrite (quote_word_ok t q _ A). reflexivity.
Qed.
Lemma forall2_right : forall (R : bytes -> bytes -> Prop) a b, Forall2 R a b -> forall y, In y b -> exists x, R x y.
Proof. induction 1 as [|x y a b H F IH]; intros z I; [contradiction|]. destruct I as [<-|I]; eauto. Qed.
Lemma sane_effect_trailing : forall path w t args k v, trailing w t args -> sane_value (defaults k) v -> sane_value (defaults k) (effect path w k v).
Proof.
  intros path w t args k v T S. destruct T as [w t A|k' c n I|k' c n d I N|incl ps ts F U|ns ts F U|ns ts F U|ns ts F U| |p U L| |q t A U]; cbn [effect].
  - apply (sane_effect_attached path w t k v A S).
  - destruct (key_eq_dec k' k) as [<-|]; auto. cbn in I. repeat (destruct I as [E|I]; [injection E; intros; subst; exact Logic.I|]). contradiction.
  - destruct (key_eq_dec k' k) as [<-|]; auto. cbn in I. repeat (destruct I as [E|I]; [injection E; intros; subst; exact Logic.I|]). contradiction.
  - destruct v as [| | |l]; auto. destruct (defaults k); auto. apply limit_length.
  - destruct v; auto. destruct (key_eq_dec Klists k); auto.
  - destruct v; auto. destruct (key_eq_dec Kshuffles k); auto.
  - destruct (existsb _ ns) eqn:E; auto. apply existsb_exists in E. destruct E as (n & I & E). destruct (key_eq_dec (look Kcolorful warning_keys n) k) as [<-|]; [|discriminate].
    destruct (forall2_right _ _ _ F n I) as (tt & A). pose proof (abbrev_in _ _ _ A) as J. cbn in J. repeat (destruct J as [<-|J]; [exact Logic.I|]). contradiction.
  - destruct (key_eq_dec Kjunit_path k) as [<-|]; [exact Logic.I|auto].
  - destruct (key_eq_dec Kjunit_path k) as [<-|]; [exact Logic.I|auto].
  - destruct (key_eq_dec Kquote k) as [<-|]; [exact Logic.I|auto].
  - destruct (key_eq_dec Kquote k) as [<-|]; [exact Logic.I|auto].
Qed.
Lemma written_dashed : forall sws args, written sws args -> dashed args. Proof. intros sws args W. destruct W; cbn; eauto. Qed.
Definition after (path : bytes) (ws : list sw) (s : settings) (k : key) : value := fold_left (fun v w => effect path w k v) ws (s k).
Lemma group_runs : forall path ws ts, Forall2 attached ws ts -> forall last t args, trailing last t args -> forall rest s, dashed rest -> sane s -> (length path <= 245)%nat ->
  exists s', (forall k, s' k = after path (ws ++ [last]) s k) /\ sane s' /\ forall j0 r0, next_option j0 r0 = next_option (concat ts ++ t) (args ++ rest) -> forall o, runs path j0 r0 s o <-> runs path [] rest s' o.
Proof.
  intros path ws ts F. induction F as [|w x ws ts A F IH]; intros last t args T rest s D SA LP.
  - destruct t as [|c d]; [exfalso; inversion T as [w' t A E1 E2 E3| | | | | | | | | |]; subst; inversion A|].
    destruct (trailing_step path last c d args rest s T D SA LP) as (s' & E & H). exists s'. split; [intros k; rewrite H; reflexivity|]. split; [intros k; rewrite H; apply (sane_effect_trailing path last (c :: d) args k (s k) T (SA k))|].
    intros j0 r0 N o. cbn [concat app next_option] in N. rewrite (runs_step path j0 r0 s c d (args ++ rest) N). rewrite E. reflexivity.
  - destruct x as [|c d]; [inversion A|]. cbn [concat app].
    assert (ND : nodigit (concat ts ++ t)) by (apply (nodigit_concat ws ts t F); apply (trailing_nodigit _ _ _ T)).
    destruct (attached_step path w c d (concat ts ++ t) (args ++ rest) s A ND SA) as (s1 & E & H).
    assert (SA1 : sane s1) by (intros k; rewrite H; apply (sane_effect_attached path w (c :: d) k (s k) A (SA k))).
    destruct (IH last t args T rest s1 D SA1 LP) as (s' & H' & SA' & R). exists s'. split; [intros k; rewrite H'; unfold after; cbn [app fold_left]; rewrite H; reflexivity|]. split; auto.
    intros j0 r0 N o. rewrite <- app_assoc in N. cbn [next_option] in N. rewrite (runs_step path j0 r0 s c _ (args ++ rest) N). rewrite E. apply R. reflexivity.
Qed.
Lemma written_runs : forall path sws args, written sws args -> (length path <= 245)%nat -> forall s, sane s -> exists s', runs path [] args s (Done s') /\ (forall k, s' k = after path sws s k).
Proof.
  intros path sws args W LP. induction W as [|ws ts last t args sws rest F T W IH]; intros s SA.
  - exists s. split; [exists 1%nat; reflexivity|]. intros k. reflexivity.
  - destruct (group_runs path ws ts F last t args T rest s (written_dashed _ _ W) SA LP) as (s1 & H1 & SA1 & R). destruct (IH s1 SA1) as (s' & R' & H'). exists s'. split.
    + apply (R [] ((45 :: concat ts ++ t) :: args ++ rest)); auto.
    + intros k. rewrite H'. unfold after. rewrite H1. unfold after. rewrite <- fold_left_app, <- app_assoc. reflexivity.
Qed.
Lemma defaults_sane : sane defaults. Proof. intros k. destruct k; cbn; auto; lia. Qed.
Lemma written_parse : forall path sws args s, written sws args -> (length path <= 245)%nat -> (size [] args <= 255)%nat -> sane s -> exists s', parse_args path args s = Some (Done s') /\ (forall k, s' k = fold_left (fun v w => effect path w k v) sws (s k)).
Proof. intros path sws args s W LP L SA. destruct (written_runs path sws args W LP s SA) as (s' & R & H). exists s'. split; auto. apply parse_of_runs; auto. Qed.
Lemma ignored : forall path a args s o, undashed a -> (runs path [] (a :: args) s o <-> runs path [] args s o).
Proof.
  intros path a args s o U. assert (G : fetch (a :: args) = fetch args). { cbn [fetch]. destruct a as [|x a]; auto. unfold undashed in U. cbn in U. destruct x as [|p]; auto. do 6 (destruct p as [p|p|]; auto). congruence. }
  split; intros (f & E); exists f; destruct f as [|f]; try discriminate; cbn [loop next_option] in *; [rewrite G in E; auto|rewrite G; auto].
Qed.
