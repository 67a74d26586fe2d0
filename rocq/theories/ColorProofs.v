From Coq Require Import List NArith Bool Arith Lia.
From Verif Require Import Base StrModel LineModel LineSpec LineProofs LineProofs2 ColorModel ColorSpec.
Import ListNotations.
Local Open Scope N_scope.

Lemma printl_app : forall c a b t, printl c (a ++ b) t = match printl c a t with Some (t1, o1) => match printl c b t1 with Some (t2, o2) => Some (t2, o1 ++ o2) | None => None end | None => None end.
Proof.
  intros c. induction a as [|w a IH]; intros b t; cbn [app printl].
  - destruct (printl c b t) as [[t2 o2]|]; reflexivity.
  - destruct (print c w t) as [[t1 o1]|]; auto. rewrite IH. destruct (printl c a t1) as [[t2 o2]|]; auto. destruct (printl c b t2) as [[t3 o3]|]; auto. rewrite app_assoc. reflexivity.
Qed.
Lemma plain_output : forall l t, printl false l t = Some (t, spoken l).
Proof.
  intros l. rewrite <- text_spoken. induction l as [|w l IH]; intros t; auto. cbn [printl]. unfold print. destruct (isctrl w) eqn:C; rewrite IH; unfold text; cbn [filter]; rewrite C; reflexivity.
Qed.

(** ** the terminal *)
Lemma terminal_text : forall w a r, ~ In 27 w -> terminal Plain a (w ++ r) = map (fun c => (a, c)) w ++ terminal Plain a r.
Proof.
  induction w as [|c w IH]; intros a r N; auto. cbn [app terminal map]. replace (c =? 27) with false by (symmetry; apply N.eqb_neq; intros ->; apply N; left; auto). rewrite IH; auto. intros I. apply N. right. auto.
Qed.
Definition known_value (v : N) : Prop := v < 100.
Lemma digit_range : forall d, d < 10 -> (48 <=? 48 + d) && (48 + d <=? 57) = true.
Proof. intros d L. apply andb_true_intro. split; apply N.leb_le; lia. Qed.
Lemma terminal_digit : forall ps n a d r, d < 10 -> terminal (Csi ps n) a ((48 + d) :: r) = terminal (Csi ps (10 * n + d)) a r.
Proof. intros ps n a d r L. cbn [terminal]. rewrite (digit_range d L). replace (48 + d - 48) with d by lia. reflexivity. Qed.
Lemma terminal_decimal : forall v ps a r, v < 100 -> terminal (Csi ps 0) a (decimal v ++ r) = terminal (Csi ps v) a r.
Proof.
  intros v ps a r L. unfold decimal. destruct (N.ltb_spec v 10) as [B|B]; cbn [app].
  - rewrite terminal_digit by auto. f_equal.
  - assert (v / 10 < 10) by (apply N.div_lt_upper_bound; lia). assert (v mod 10 < 10) by (apply N.mod_upper_bound; lia). rewrite !terminal_digit by auto. f_equal. f_equal. rewrite (N.div_mod v 10) at 3 by lia. lia.
Qed.
Lemma terminal_semi : forall ps n a r, terminal (Csi ps n) a (59 :: r) = terminal (Csi (ps ++ [n]) 0) a r. Proof. reflexivity. Qed.
Lemma terminal_m : forall ps n a r, terminal (Csi ps n) a (109 :: r) = terminal Plain (fold_left sgr (ps ++ [n]) a) r. Proof. reflexivity. Qed.
Lemma value_range : forall s, style2value s < 100.
Proof.
  intros s. unfold style2value. destruct (find _ _) as [p|] eqn:E; [|lia]. apply find_some in E. destruct E as [I _].
  assert (F : Forall (fun p => snd p < 100) style_values) by (vm_compute; repeat constructor). rewrite Forall_forall in F. auto.
Qed.
Definition values (t : table) : list N := map style2value (filter (fun s => match s with [] => false | _ => true end) t).
Lemma rows_concat : forall t, concat (map (fun s => match s with [] => [] | _ => decimal (style2value s) ++ [59] end) t) = concat (map (fun v => decimal v ++ [59]) (values t)).
Proof. induction t as [|[|x s] t IH]; [reflexivity|exact IH|]. unfold values in *. cbn [map concat filter]. rewrite IH. reflexivity. Qed.
Lemma decimal_nonempty : forall v, decimal v <> []. Proof. intros v. unfold decimal. destruct (v <? 10); discriminate. Qed.
Lemma semis_m : forall vs x, removelast (x ++ [59] ++ concat (map (fun v => decimal v ++ [59]) vs)) = x ++ concat (map (fun v => 59 :: decimal v) vs).
Proof.
  intros vs. induction vs as [|v vs IH]; intros x.
  - cbn. rewrite removelast_last, app_nil_r. reflexivity.
  - cbn [map concat app]. change (59 :: (decimal v ++ [59]) ++ concat (map (fun v0 => decimal v0 ++ [59]) vs)) with ([59] ++ ((decimal v ++ [59]) ++ concat (map (fun v0 => decimal v0 ++ [59]) vs))).
    rewrite <- (app_assoc (decimal v)). rewrite !app_assoc. rewrite <- (app_assoc ((x ++ [59]) ++ decimal v) [59]). rewrite IH. rewrite <- !app_assoc. reflexivity.
Qed.
Lemma change_bytes : forall t, change t = [27; 91; 48] ++ concat (map (fun v => 59 :: decimal v) (values t)) ++ [109].
Proof.
  intros t. unfold change. rewrite rows_concat. change (decimal (style2value (str "reset"))) with [48]. change ([27; 91] ++ [48] ++ [59] ++ ?z) with ([27; 91; 48] ++ [59] ++ z). rewrite semis_m, <- app_assoc. reflexivity.
Qed.
Lemma terminal_values : forall vs ps n a r, Forall known_value vs -> terminal (Csi ps n) a (concat (map (fun v => 59 :: decimal v) vs) ++ 109 :: r) = terminal Plain (fold_left sgr (ps ++ n :: vs) a) r.
Proof.
  induction vs as [|v vs IH]; intros ps n a r F; cbn [map concat app]; [apply terminal_m|]. rewrite terminal_semi, <- app_assoc, terminal_decimal by (apply (Forall_inv F)).
  rewrite IH by (apply (Forall_inv_tail F)). rewrite <- app_assoc. reflexivity.
Qed.
Lemma values_known : forall t, Forall known_value (values t). Proof. intros t. apply Forall_forall. intros v I. unfold values in I. apply in_map_iff in I. destruct I as (s & <- & _). apply value_range. Qed.
Lemma terminal_change : forall t a r, terminal Plain a (change t ++ r) = terminal Plain (fold_left sgr (values t) []) r.
Proof.
  intros t a r. rewrite change_bytes. rewrite <- !app_assoc. cbn [app]. change (terminal Plain a (27 :: 91 :: 48 :: ?z)) with (terminal (Csi [] 0) a z). rewrite terminal_values by apply values_known. reflexivity.
Qed.

(** ** removing the escape sequences *)
Lemma colored_text : forall l t t' o, Forall printable l -> printl true l t = Some (t', o) -> forall a, map snd (terminal Plain a o) = spoken l.
Proof.
  assert (G : forall l t t' o, Forall printable l -> printl true l t = Some (t', o) -> forall a r, exists a', map snd (terminal Plain a (o ++ r)) = text l ++ map snd (terminal Plain a' r)).
  { induction l as [|w l IH]; intros t t' o F E a r; cbn [printl] in E.
    - assert (o = []) by congruence. subst o. exists a. reflexivity.
    - unfold print in E. destruct (isctrl w) eqn:C.
      + destruct (parse (skipn 2 w) t) as [t1|]; [|discriminate]. destruct (printl true l t1) as [[t2 o2]|] eqn:E2; [|discriminate].
        assert (o = change t1 ++ o2) by congruence. subst o. rewrite <- app_assoc, terminal_change. destruct (IH t1 t2 o2 (Forall_inv_tail F) E2 (fold_left sgr (values t1) []) r) as (a' & H). exists a'. rewrite H. unfold text. cbn [filter]. rewrite C. reflexivity.
      + destruct (printl true l t) as [[t2 o2]|] eqn:E2; [|discriminate]. assert (o = w ++ o2) by congruence. subst o. rewrite <- app_assoc. destruct (Forall_inv F) as [H|H]; [rewrite isctrl_style in C; congruence|].
        rewrite terminal_text by auto. destruct (IH t t2 o2 (Forall_inv_tail F) E2 a r) as (a' & H2). exists a'. rewrite map_app, H2, map_map. cbn [snd]. rewrite map_id. unfold text. cbn [filter]. rewrite C. cbn [negb concat]. rewrite app_assoc. reflexivity. }
  intros l t t' o F E a. rewrite <- text_spoken. destruct (G l t t' o F E a []) as (a' & H). rewrite app_nil_r in H. rewrite H. cbn. apply app_nil_r.
Qed.
Lemma pieces_length : forall s acc p, In p (pieces acc s) -> (length p <= length acc + length s)%nat.
Proof.
  induction s as [|c s IH]; intros acc p I; cbn [pieces] in I.
  - destruct I as [<-|[]]. lia.
  - cbn [length]. destruct (c =? 125); [destruct I as [<-|[]]; lia|]. destruct (c =? 44).
    + destruct I as [<-|I]; [lia|]. apply IH in I. cbn [length] in I. lia.
    + apply IH in I. rewrite app_length in I. cbn [length] in I. lia.
Qed.
Lemma parse_pieces_some : forall neg ps t, Forall (fun p => (length p < 32)%nat) ps -> exists t', parse_pieces neg ps t = Some t'.
Proof.
  intros neg ps t F. revert t. induction F as [|p ps L F IH]; intros t; [exists t; auto|]. cbn [parse_pieces]. destruct neg; [apply IH|]. unfold push_style. replace (32 <=? length p)%nat with false by (symmetry; apply Nat.leb_gt; auto). cbn [andb]. apply IH.
Qed.
Lemma colored_some : forall l t, Forall short l -> exists t' o, printl true l t = Some (t', o).
Proof.
  intros l t F. revert t. induction F as [|w l S F IH]; intros t; [exists t, []; auto|]. cbn [printl]. unfold print. destruct (isctrl w) eqn:C.
  - assert (P : exists t1, parse (skipn 2 w) t = Some t1).
    { rewrite isctrl_style in C. specialize (S C). assert (L : (length (skipn 2 w) < 32)%nat). { rewrite skipn_length. lia. }
      assert (Q : forall neg s, (length s < 32)%nat -> forall t0, exists t1, parse_pieces neg (pieces [] s) t0 = Some t1).
      { intros neg s Ls t0. apply parse_pieces_some. apply Forall_forall. intros p I. apply pieces_length in I. cbn [length] in I. lia. }
      unfold parse. destruct (skipn 2 w) as [|c r] eqn:E; [apply Q; auto|]. cbn [length] in L. destruct (c =? 43); [apply Q; lia|]. destruct (c =? 45); [apply Q; lia|]. apply Q. cbn [length]. lia. }
    destruct P as (t1 & ->). destruct (IH t1) as (t2 & o2 & ->). eauto.
  - destruct (IH t) as (t2 & o2 & ->). eauto.
Qed.

(** ** nested styles *)
Lemma number_value : forall s, style_name s -> style2value s = number s.
Proof.
  intros s I. assert (B : forallb (fun s => style2value s =? number s) (map fst sgr_numbers) = true) by (vm_compute; reflexivity).
  rewrite forallb_forall in B. apply N.eqb_eq. apply B. exact I.
Qed.
Lemma numbers_values : forall st, Forall style_name st -> map style2value st = map number st.
Proof. induction 1 as [|s st S F IH]; auto. cbn [map]. rewrite IH, number_value by auto. reflexivity. Qed.
Lemma style_facts : forall s, style_name s -> s <> [] /\ (length s < 32)%nat /\ ~ In 44 s /\ ~ In 125 s /\ prefixb s (str "reset") = false /\ style2value s <> 0 /\ style2value s < 100.
Proof.
  intros s I. unfold style_name in I.
  assert (F : Forall (fun s => s <> [] /\ (length s < 32)%nat /\ ~ In 44 s /\ ~ In 125 s /\ prefixb s (str "reset") = false /\ style2value s <> 0 /\ style2value s < 100) (map fst sgr_numbers)).
  { assert (B : forallb (fun s => negb (bytes_eqb s []) && (length s <? 32)%nat && negb (existsb (N.eqb 44) s) && negb (existsb (N.eqb 125) s) && negb (prefixb s (str "reset")) && negb (style2value s =? 0) && (style2value s <? 100)) (map fst sgr_numbers) = true) by (vm_compute; reflexivity).
    apply Forall_forall. intros x Ix. rewrite forallb_forall in B. specialize (B x Ix). rewrite !andb_true_iff, !negb_true_iff in B. destruct B as ((((((B1 & B2) & B3) & B4) & B5) & B6) & B7).
    split; [intros ->; discriminate|]. split; [apply Nat.ltb_lt; auto|].
    assert (E : forall k, existsb (N.eqb k) x = false -> ~ In k x). { intros k Ek Ik. assert (existsb (N.eqb k) x = true) by (apply existsb_exists; exists k; split; auto; apply N.eqb_refl). congruence. }
    split; [auto|]. split; [auto|]. split; [auto|]. split; [apply N.eqb_neq; auto|apply N.ltb_lt; auto]. }
  rewrite Forall_forall in F. auto.
Qed.
Lemma pieces_name : forall s acc, ~ In 44 s -> ~ In 125 s -> pieces acc (s ++ [125]) = [acc ++ s].
Proof.
  induction s as [|c s IH]; intros acc N1 N2; cbn [app pieces]; [rewrite app_nil_r; reflexivity|].
  replace (c =? 125) with false by (symmetry; apply N.eqb_neq; intros ->; apply N2; left; auto). replace (c =? 44) with false by (symmetry; apply N.eqb_neq; intros ->; apply N1; left; auto).
  rewrite IH; [rewrite <- app_assoc; reflexivity|intros I; apply N1; right; auto|intros I; apply N2; right; auto].
Qed.
Lemma push_row_ok : forall s st k, Forall (fun x => x <> []) st -> push_row s (st ++ [] :: k) = st ++ s :: k.
Proof. induction 1 as [|x st N F IH]; auto. cbn [app push_row]. destruct x; [congruence|]. rewrite IH. reflexivity. Qed.
Lemma table_push : forall s st, style_name s -> Forall style_name st -> (length st < 8)%nat -> push_style s (table_of st) = Some (table_of (st ++ [s])).
Proof.
  intros s st S F L. destruct (style_facts s S) as (_ & L32 & _). unfold push_style. replace (32 <=? length s)%nat with false by (symmetry; apply Nat.leb_gt; auto). cbn [andb]. f_equal. unfold table_of.
  replace (8 - length st)%nat with (Datatypes.S (8 - length (st ++ [s]))) by (rewrite app_length; cbn [length]; lia). cbn [repeat]. rewrite push_row_ok, <- app_assoc; auto. apply Forall_forall. intros x I. rewrite Forall_forall in F. apply (style_facts x (F x I)).
Qed.
Lemma table_pop : forall s st, style_name s -> ~ In s st -> (length st < 8)%nat -> pop_style s (table_of (st ++ [s])) = table_of st.
Proof.
  intros s st S N L. unfold pop_style, table_of. replace (8 - length st)%nat with (Datatypes.S (8 - length (st ++ [s]))) by (rewrite app_length; cbn [length]; lia). rewrite !map_app. cbn [map repeat].
  replace (bytes_eqb s s) with true by (symmetry; apply bytes_eqb_eq; auto). rewrite <- app_assoc. f_equal.
  - rewrite <- (map_id st) at 2. apply map_ext_in. intros x I. destruct (bytes_eqb x s) eqn:E; auto. apply bytes_eqb_eq in E. subst. contradiction.
  - cbn [app]. f_equal. rewrite <- (map_id (repeat _ _)) at 2. apply map_ext_in. intros x I. apply repeat_spec in I. subst. destruct (bytes_eqb [] s); reflexivity.
Qed.
Lemma values_table : forall st, Forall style_name st -> fold_left sgr (values (table_of st)) [] = map style2value st.
Proof.
  intros st F. assert (V : values (table_of st) = map style2value st).
  { unfold values, table_of. rewrite filter_app, map_app. replace (filter _ (repeat [] _)) with (@nil bytes); [rewrite app_nil_r|].
    - induction F as [|s st S F IH]; auto. cbn [filter map]. destruct (style_facts s S) as (NE & _). destruct s; [congruence|]. cbn [map]. rewrite IH. reflexivity.
    - generalize (8 - length st)%nat. intros n. induction n; auto. }
  rewrite V. clear V. assert (G : forall a, fold_left sgr (map style2value st) a = a ++ map style2value st); [|apply G].
  induction F as [|s st S F IH]; intros a; cbn [map fold_left]; [rewrite app_nil_r; auto|]. rewrite IH. destruct (style_facts s S) as (_ & _ & _ & _ & _ & NZ & _). unfold sgr. apply N.eqb_neq in NZ. rewrite NZ, <- app_assoc. reflexivity.
Qed.
Lemma doc_ok : forall d st, Forall style_name st -> nested_ok st d -> exists o, printl true (doc_words d) (table_of st) = Some (table_of st, o) /\
  forall r, terminal Plain (map number st) (o ++ r) = doc_shown st d ++ terminal Plain (map number st) r.
Proof.
  induction d as [|t n IH|s i IHi n IHn]; intros st F OK.
  - exists []. split; reflexivity.
  - destruct OK as [N OK]. destruct (IH st F OK) as (o & E & T). exists (t ++ o). cbn [doc_words printl]. unfold print.
    replace (isctrl t) with false.
    2:{ symmetry. destruct t as [|c t]; auto. unfold isctrl. destruct (N.eq_dec c 27) as [->|NE]; [exfalso; apply N; left; auto|]. destruct c as [|p]; [reflexivity|]. do 5 (destruct p as [p|p|]; try reflexivity). congruence. }
    rewrite E. split; auto. intros r. rewrite <- app_assoc, terminal_text by auto. rewrite T. cbn [doc_shown]. rewrite app_assoc. reflexivity.
  - destruct OK as (S & NI & L & OKi & OKn). destruct (style_facts s S) as (NE & L32 & N44 & N125 & PR & NZ & L100).
    assert (F' : Forall style_name (st ++ [s])) by (apply Forall_app; auto).
    destruct (IHi (st ++ [s]) F' OKi) as (oi & Ei & Ti). destruct (IHn st F OKn) as (on & En & Tn).
    exists (change (table_of (st ++ [s])) ++ oi ++ change (table_of st) ++ on). split.
    + cbn [doc_words]. cbn [printl]. unfold print at 1. cbn [app isctrl skipn]. unfold parse. replace (43 =? 43) with true by reflexivity. rewrite pieces_name by auto. cbn [parse_pieces app]. rewrite (table_push s st S F L), PR. cbn beta iota.
      rewrite printl_app, Ei. cbn [printl]. unfold print. cbn [app isctrl skipn]. unfold parse. replace (45 =? 43) with false by reflexivity. replace (45 =? 45) with true by reflexivity. rewrite pieces_name by auto. cbn [parse_pieces app]. rewrite (table_pop s st S NI L), PR, En. reflexivity.
    + intros r. rewrite <- !app_assoc. rewrite terminal_change, values_table by auto. rewrite (numbers_values (st ++ [s])) by auto. rewrite Ti.
      rewrite terminal_change, values_table, numbers_values by auto. rewrite Tn. cbn [doc_shown]. rewrite app_assoc. reflexivity.
Qed.
Lemma doc_shown_ok : forall d st, Forall style_name st -> nested_ok st d -> exists o, printl true (doc_words d) (table_of st) = Some (table_of st, o) /\ terminal Plain (map number st) o = doc_shown st d.
Proof. intros d st F OK. destruct (doc_ok d st F OK) as (o & E & T). exists o. split; auto. specialize (T []). cbn [terminal] in T. rewrite !app_nil_r in T. auto. Qed.

(** ** a style word and reset *)
Lemma style_first : forall s, style_name s -> exists c r, s = c :: r /\ c <> 43 /\ c <> 45.
Proof.
  intros s I. assert (B : forallb (fun s => match s with [] => false | c :: _ => negb (c =? 43) && negb (c =? 45) end) (map fst sgr_numbers) = true) by (vm_compute; reflexivity).
  rewrite forallb_forall in B. specialize (B s I). destruct s as [|c r]; [discriminate|]. exists c, r. rewrite andb_true_iff, !negb_true_iff, !N.eqb_neq in B. tauto.
Qed.
Lemma pieces_comma : forall s acc r, ~ In 44 s -> ~ In 125 s -> pieces acc (s ++ 44 :: r) = (acc ++ s) :: pieces [] r.
Proof.
  induction s as [|c s IH]; intros acc r N1 N2; cbn [app pieces]; [rewrite app_nil_r; reflexivity|].
  replace (c =? 125) with false by (symmetry; apply N.eqb_neq; intros ->; apply N2; left; auto). replace (c =? 44) with false by (symmetry; apply N.eqb_neq; intros ->; apply N1; left; auto).
  rewrite IH; [rewrite <- app_assoc; reflexivity|intros I; apply N1; right; auto|intros I; apply N2; right; auto].
Qed.
Lemma pieces_commas : forall ss, Forall style_name ss -> ss <> [] -> pieces [] (commas ss ++ [125]) = ss.
Proof.
  induction 1 as [|s ss S F IH]; intros NE; [congruence|]. destruct (style_facts s S) as (_ & _ & N44 & N125 & _). destruct ss as [|s2 ss]; [cbn [commas]; apply (pieces_name s []); auto|].
  change (commas (s :: s2 :: ss)) with (s ++ 44 :: commas (s2 :: ss)). rewrite <- app_assoc. cbn [app]. rewrite (pieces_comma s []) by auto. rewrite IH by discriminate. reflexivity.
Qed.
Lemma parse_names : forall ss st, Forall style_name ss -> Forall style_name st -> (length st + length ss <= 8)%nat -> parse_pieces false ss (table_of st) = Some (table_of (st ++ ss)).
Proof.
  induction ss as [|s ss IH]; intros st F Fs L; cbn [parse_pieces]; [rewrite app_nil_r; auto|]. cbn [length] in L. pose proof (Forall_inv F) as S. destruct (style_facts s S) as (_ & _ & _ & _ & PR & _).
  rewrite (table_push s st S Fs) by lia. rewrite PR. rewrite (IH (st ++ [s])); [rewrite <- app_assoc; reflexivity|apply (Forall_inv_tail F)|apply Forall_app; auto|rewrite app_length; cbn [length]; lia].
Qed.
Lemma reset_word : forall t, length t = 8%nat -> print true (27 :: str "{reset}") t = Some (empty_table, change empty_table).
Proof.
  intros t L. unfold print. change (isctrl (27 :: str "{reset}")) with true. cbn iota. change (skipn 2 (27 :: str "{reset}")) with (str "reset}"). unfold parse.
  change (parse_pieces false (pieces [] (str "reset}")) t) with (parse_pieces false [str "reset"] t). cbn [parse_pieces]. unfold push_style. change (32 <=? length (str "reset"))%nat with false. cbn [andb]. change (prefixb (str "reset") (str "reset")) with true. cbn iota.
  assert (P : length (push_row (str "reset") t) = 8%nat). { rewrite <- L. clear L. induction t as [|[|x y] t IH]; auto; cbn [push_row length]; rewrite ?IH; reflexivity. }
  unfold clear_style. destruct (push_row (str "reset") t) as [|a1 [|a2 [|a3 [|a4 [|a5 [|a6 [|a7 [|a8 [|a9 u]]]]]]]]]; try discriminate P. reflexivity.
Qed.
Lemma reset_ok : forall t, length t = 8%nat -> exists o, printl true [27 :: str "{reset}"] t = Some (empty_table, o) /\ forall a r, terminal Plain a (o ++ r) = terminal Plain [] r.
Proof. intros t L. cbn [printl]. rewrite (reset_word t L). eexists. split; [reflexivity|]. intros a r. rewrite app_nil_r. rewrite terminal_change. reflexivity. Qed.
Lemma brushed_ok : forall ss s, Forall style_name ss -> (length ss <= 8)%nat -> ~ In 27 s ->
  exists o, printl true (brushed ss s) empty_table = Some (empty_table, o) /\ forall r, terminal Plain [] (o ++ r) = map (fun c => (map number ss, c)) s ++ terminal Plain [] r.
Proof.
  intros ss s F L NE. unfold brushed. set (w := [27; 123] ++ commas ss ++ [125]).
  assert (P : print true w empty_table = Some (table_of ss, change (table_of ss))).
  { unfold print. change (isctrl w) with true. cbn iota. change (skipn 2 w) with (commas ss ++ [125]). destruct ss as [|s1 ss1]; [reflexivity|].
    destruct (style_first s1 (Forall_inv F)) as (c & q & E & N1 & N2). assert (PC : pieces [] (commas (s1 :: ss1) ++ [125]) = s1 :: ss1) by (apply pieces_commas; [auto|discriminate]).
    assert (H : exists z, commas (s1 :: ss1) ++ [125] = c :: z). { subst s1. destruct ss1; eexists; reflexivity. } destruct H as (z & H). rewrite H in *. unfold parse. apply N.eqb_neq in N1, N2. rewrite N1, N2, PC.
    change empty_table with (table_of []). rewrite (parse_names (s1 :: ss1) []); auto. }
  assert (C : isctrl s = false). { destruct s as [|c s]; auto. rewrite isctrl_style. cbn [is_style]. destruct s as [|d s]; auto. replace (c =? 27) with false; auto. symmetry. apply N.eqb_neq. intros ->. apply NE. left. auto. }
  cbn [printl]. rewrite P. unfold print at 1. rewrite C. rewrite reset_word by (unfold table_of; rewrite app_length, repeat_length; lia). eexists. split; [reflexivity|]. intros r. rewrite app_nil_r, <- !app_assoc. rewrite terminal_change, values_table, numbers_values by auto.
  rewrite terminal_text by auto. rewrite terminal_change. reflexivity.
Qed.
