(** Proofs: the line that reports a failed check, its parts put together. *)
From Coq Require Import List NArith Bool Arith Lia.
From Verif Require Import Base LineModel LineSpec LineProofs LineProofs2 FilterModel ListingModel ListingSpec ListingProofs JunitModel JunitSpec JunitProofs StrdiffSpec StrdiffProofs MessageModel MessageSpec MessageProofs.
Import ListNotations.
Local Open Scope N_scope.

Lemma whole7 : (7 <= whole)%nat. Proof. unfold whole. lia. Qed.
Lemma limit7 : forall d n, (7 <= n)%nat -> (7 <= limit d n)%nat. Proof. intros [|] n H; [apply whole7|exact H]. Qed.
Lemma col_green : restyle ([27; 123] ++ str "green" ++ [125]) [] = green. Proof. reflexivity. Qed.
Lemma col_cyan : restyle ([27; 123] ++ str "cyan" ++ [125]) [] = cyan. Proof. reflexivity. Qed.
Lemma col_red : restyle ([27; 123] ++ str "bold,red" ++ [125]) [] = red. Proof. reflexivity. Qed.
Lemma c_green : colour green. Proof. right; left; reflexivity. Qed.
Lemma c_cyan : colour cyan. Proof. right; right; left; reflexivity. Qed.
Lemma c_red : colour red. Proof. right; right; right; reflexivity. Qed.
Lemma c_none : colour []. Proof. left; reflexivity. Qed.
Lemma fits_mono : forall W V s, (W <= V)%nat -> fits W s -> fits V s.
Proof. intros W V s L (cs & A & B & C). exists cs. repeat split; [exact A|exact B|lia]. Qed.
Lemma wholesome_mono : forall W V s, (W <= V)%nat -> wholesome W s -> wholesome V s.
Proof. intros W V s L (A & B & [C|C]); (split; [exact A|split; [exact B|]]); [left; eapply fits_mono; eassumption|right; exact C]. Qed.
Lemma limit_whole : forall d n, (n <= whole)%nat -> (limit d n <= whole)%nat. Proof. intros [|] n H; cbn; [lia|exact H]. Qed.
Lemma n120 : (120 <= whole)%nat. Proof. unfold whole. lia. Qed.
Lemma nonvoid_spelled : forall v, ~ void v -> ~ In 0 (spoken v) -> spelled (spoken v) <> [].
Proof. intros v H K. apply spelled_nonempty; assumption. Qed.

Lemma expected_ok : forall d u, wholesome (limit d 120) (u_e u) -> whole_value whole (u_expection u) ->
  exists l o, expected_side d u = Some l /\ leaves [] l o /\ shows_expected whole (limit d 120) (u_e u) (u_expection u) o.
Proof.
  intros d u We Wv. unfold expected_side. destruct (width_void _ (proj1 Wv)) as (w & E & V). rewrite E. cbn [bind].
  assert (We2 : wholesome whole (u_e u)) by (eapply wholesome_mono; [apply (limit_whole d 120), n120|exact We]).
  destruct (Nat.eqb_spec w 0) as [Z|Z].
  - destruct (expression_ok whole (str "green") green (u_e u) We2 whole7 c_green col_green) as (l & x & A & B & C). exists l, (quoted x). split; [exact A|]. split; [exact C|].
    split; [intros _; exists x; auto|]. split; intros K; exfalso; apply K, V, Z.
  - assert (NV : ~ void (u_expection u)) by (rewrite <- V; exact Z). rewrite text_spoken. destruct (synonym_ok (u_e u) (spoken (u_expection u))) as (r & S1 & S2); [apply nonvoid_spelled; [exact NV|apply Wv]|].
    rewrite S1. cbn [bind]. destruct r.
    + destruct We2 as (_ & Cm & FP). destruct (word_ok whole 3 (str "green") green (u_e u) Cm FP whole7) as (l & x & A & B & C); [lia|apply c_green|apply col_green|]. exists l, x. split; [exact A|]. split; [exact C|].
      split; [intros K; contradiction|]. split; [intros _ _; exact B|intros _ K; exfalso; apply K, S2; reflexivity].
    + destruct (expression_ok (limit d 120) (str "cyan") cyan (u_e u) We) as (l & x & A & B & C); [apply limit7; lia|apply c_cyan|apply col_cyan|]. rewrite A. cbn [bind].
      destruct (value_ok whole (str "green") green (u_expection u) Wv) as (l2 & y & A2 & B2 & C2); [pose proof whole7; lia|apply col_green|]. rewrite A2. cbn [bind].
      eexists _, _. split; [reflexivity|]. split; [apply leaves_app; [exact C|apply leaves_app; [apply leaves_gray; [apply c_none|reflexivity]|exact C2]]|].
      split; [intros K; contradiction|]. split; [intros _ K; apply S2 in K; discriminate|]. intros _ _. exists x, y. auto.
Qed.
Lemma actual_ok : forall d u, (u_a u = [] -> ~ void (u_represent u)) -> (u_a u <> [] -> wholesome (limit d 120) (u_a u)) -> whole_value whole (u_represent u) ->
  exists l o, actual_side d u = Some l /\ leaves [] l o /\ shows_actual whole (limit d 120) (u_a u) (u_represent u) o.
Proof.
  intros d u Ha We Wv. unfold actual_side. destruct (width_void _ (proj1 Wv)) as (w & E & V). rewrite E. cbn [bind].
  destruct (Nat.eqb_spec w 0) as [Z|Z].
  - assert (VV : void (u_represent u)) by (apply V, Z). assert (Na : u_a u <> []) by (intros K; exact (Ha K VV)).
    assert (We2 : wholesome whole (u_a u)) by (eapply wholesome_mono; [apply (limit_whole d 120), n120|apply We, Na]).
    destruct (expression_ok whole (str "bold,red") red (u_a u) We2 whole7 c_red col_red) as (l & x & A & B & C). exists l, (quoted x). split; [exact A|]. split; [exact C|].
    split; [intros _; exists x; auto|]. split; intros K; contradiction.
  - assert (NV : ~ void (u_represent u)) by (rewrite <- V; exact Z). rewrite text_spoken. destruct (synonym_ok (u_a u) (spoken (u_represent u))) as (r & S1 & S2); [apply nonvoid_spelled; [exact NV|apply Wv]|].
    rewrite S1. cbn [bind]. destruct (value_ok whole (str "bold,red") red (u_represent u) Wv) as (l2 & y & A2 & B2 & C2); [pose proof whole7; lia|apply col_red|]. rewrite A2. cbn [bind].
    destruct (r || match u_a u with [] => true | _ => false end) eqn:Q.
    + exists l2, y. split; [reflexivity|]. split; [exact C2|]. split; [intros K; contradiction|]. split; [intros _ _; exact B2|]. intros _ K Na. exfalso. apply orb_true_iff in Q. destruct Q as [Q|Q]; [apply K, S2, Q|]. destruct (u_a u); [congruence|discriminate].
    + apply orb_false_iff in Q. destruct Q as (Q1 & Q2). assert (Na : u_a u <> []) by (destruct (u_a u); [discriminate|discriminate]).
      destruct (expression_ok (limit d 120) (str "cyan") cyan (u_a u) (We Na)) as (l & x & A & B & C); [apply limit7; lia|apply c_cyan|apply col_cyan|]. rewrite A. cbn [bind].
      eexists _, _. split; [reflexivity|]. split; [apply leaves_app; [exact C2|apply leaves_app; [apply leaves_gray; [apply c_none|reflexivity]|exact C]]|].
      split; [intros K; contradiction|]. split; [intros _ [K|K]; [apply S2 in K; congruence|contradiction]|]. intros _ _ _. exists y, x. auto.
Qed.

(** ** behind what was checked *)
Lemma place_ok : forall f, ~ In 27 f -> exists o, leaves [] (locate f) o /\ shows_place f o.
Proof.
  intros f H. unfold locate. destruct (forallb isspace f) eqn:E.
  - exists []. split; [apply leaves_nil|]. split; [reflexivity|]. intros K. exfalso. apply K. apply Forall_forall. intros c I. rewrite forallb_forall in E. specialize (E c I). unfold isspace in E.
    rewrite orb_true_iff, andb_true_iff, N.eqb_eq, !N.leb_le in E. lia.
  - eexists. split; [apply leaves_app; [apply leaves_gray; [apply c_none|reflexivity]|apply leaves_word, no_esc]|].
    + destruct (basefile_part f) as (_ & [Q|(b & c & Q & _)]); [rewrite <- Q; exact H|]. intros I. apply H. rewrite Q. apply in_app_iff. right. right. exact I.
    + split.
      * intros F. exfalso. assert (forallb isspace f = true); [|congruence]. apply forallb_forall. intros c I. rewrite Forall_forall in F. specialize (F c I). unfold isspace. rewrite orb_true_iff, andb_true_iff, N.eqb_eq, !N.leb_le. lia.
      * intros _. exists (basefile f). split; [apply basefile_part|reflexivity].
Qed.
Lemma glue_style : forall c, is_style (glue c) = false. Proof. intros c. unfold glue. destruct (c =? 0)%nat; reflexivity. Qed.
(** the end of message *)
Definition ending (c w : nat) (u : unexpect) : line :=
  let ex := if (w =? 0)%nat then ([], c) else (glue c :: u_explain u, S c) in
  fst ex ++ (match u_user u with [] => [] | s => [glue (snd ex); s] end) ++ locate (u_filine u).
Lemma ending_ok : forall c w u, closed (u_explain u) -> proper (u_explain u) -> line_width (u_explain u) = Some w -> ~ In 27 (u_user u) -> ~ In 27 (u_filine u) ->
  exists o, leaves [] (ending c w u) o /\ shows_rest (negb (c =? 0)%nat) (u_explain u) (u_user u) (u_filine u) o.
Proof.
  intros c w u C P E U F. destruct (width_void _ P) as (w' & E' & V). rewrite E in E'. inversion E'; subst w'. destruct (place_ok _ F) as (z & Lz & Sz).
  unfold ending. set (ex := if (w =? 0)%nat then ([], c) else (glue c :: u_explain u, S c)).
  assert (X : exists x, leaves [] (fst ex) x /\ (void (u_explain u) -> x = []) /\ (~ void (u_explain u) -> x = letters [] (if negb (c =? 0)%nat then str ", " else str " ") ++ ink [] (u_explain u))).
  { unfold ex. destruct (Nat.eqb_spec w 0) as [Z|Z].
    - exists []. split; [apply leaves_nil|]. split; [reflexivity|]. intros K. exfalso. apply K, V, Z.
    - eexists. split; [apply (leaves_app [] [glue c]); [apply leaves_word, glue_style|split; [reflexivity|exact C]]|]. split; [intros K; apply V in K; contradiction|]. intros _. unfold glue. destruct (c =? 0)%nat; reflexivity. }
  destruct X as (x & Lx & X1 & X2).
  assert (Y : exists y, leaves [] (match u_user u with [] => [] | s => [glue (snd ex); s] end) y /\ (u_user u = [] -> y = []) /\
    (u_user u <> [] -> void (u_explain u) -> negb (c =? 0)%nat = false -> y = letters [] (str " " ++ u_user u)) /\
    (u_user u <> [] -> ~ void (u_explain u) \/ negb (c =? 0)%nat = true -> y = letters [] (str ", " ++ u_user u))).
  { destruct (u_user u) as [|a b] eqn:EU; [exists []; split; [apply leaves_nil|]; split; [reflexivity|]; split; congruence|].
    eexists. split; [apply (leaves_app [] [glue (snd ex)]); [apply leaves_word, glue_style|apply leaves_word, no_esc, U]|]. split; [discriminate|]. split.
    - intros _ K Q. apply V in K. unfold ex. rewrite K. cbn [Nat.eqb snd]. apply negb_false_iff in Q. unfold glue. rewrite Q, letters_app. reflexivity.
    - intros _ [K|K]; unfold ex.
      + rewrite <- V in K. destruct (Nat.eqb_spec w 0); [contradiction|]. cbn [snd]. unfold glue. cbn [Nat.eqb]. rewrite letters_app. reflexivity.
      + apply negb_true_iff in K. destruct (w =? 0)%nat; cbn [snd]; unfold glue; [rewrite K|cbn [Nat.eqb]]; rewrite letters_app; reflexivity. }
  destruct Y as (y & Ly & Y1 & Y2 & Y3). exists (x ++ y ++ z). split; [apply leaves_app; [exact Lx|apply leaves_app; [exact Ly|exact Lz]]|]. exists x, y, z. auto 10.
Qed.
(** the conditions on the rest *)
Definition rest_fine (u : unexpect) : Prop := unobtrusive (u_explain u) (u_user u) (u_filine u).
Lemma indent_ok : forall n, leaves [] (indent [] n) (letters [] (repeat 32 n)).
Proof. intros n. unfold indent. destruct (Nat.eqb_spec n 0) as [->|]; [apply leaves_nil|]. apply leaves_word, no_esc. intros H. apply repeat_spec in H. discriminate. Qed.
Lemma message_ok : forall d ci u l c o, rest_fine u ->
  (match u_type u with
        | TIn => print_In d u
        | TOK1 => option_map (fun l => (l, 0%nat)) (print_OK1 (str "OK") u)
        | TKO1 => option_map (fun l => (l, 0%nat)) (print_OK1 (str "KO") u)
        | TOK2 => option_map (fun l => (l, 0%nat)) (print_OK2 d (str "OK") u)
        | TKO2 => option_map (fun l => (l, 0%nat)) (print_OK2 d (str "KO") u)
        | TJE => option_map (fun l => (l, 0%nat)) (print_JE d u)
        end) = Some (l, c) -> leaves [] l o ->
  exists m r, message d ci u = Some m /\ ink [] m = letters [] (repeat 32 (2 * ci + 1)) ++ o ++ r /\ behind_line [] m = [] /\ shows_rest (negb (c =? 0)%nat) (u_explain u) (u_user u) (u_filine u) r.
Proof.
  intros d ci u l c o (C & P & U & F) E L. unfold message. rewrite E. cbn [bind]. destruct (width_void _ P) as (w & EW & V). rewrite EW. cbn [bind fst snd]. cbv zeta.
  destruct (ending_ok c w u C P EW U F) as (r & Lr & Sr). eexists _, r. split; [reflexivity|].
  assert (LL : leaves [] (indent [] (ci * 2 + 1) ++ l ++ ending c w u) (letters [] (repeat 32 (ci * 2 + 1)) ++ o ++ r)) by (apply leaves_app; [apply indent_ok|apply leaves_app; assumption]).
  destruct LL as (L1 & L2). replace (2 * ci)%nat with (ci * 2)%nat by lia. unfold ending in L1, L2. split; [exact L1|]. split; [exact L2|exact Sr].
Qed.

(** ** the types *)
Lemma two_sides : forall d ci u t, (u_type u = TOK2 /\ t = str "OK") \/ (u_type u = TKO2 /\ t = str "KO") -> ~ In 27 (u_op u) -> rest_fine u ->
  wholesome (limit d 120) (u_e u) -> whole_value whole (u_expection u) -> (u_a u = [] -> ~ void (u_represent u)) -> (u_a u <> [] -> wholesome (limit d 120) (u_a u)) -> whole_value whole (u_represent u) ->
  exists m e a r, message d ci u = Some m /\ behind_line [] m = [] /\
    ink [] m = letters [] (repeat 32 (2 * ci + 1) ++ t) ++ grayed [] (str "(") ++ e ++ letters [] (str " " ++ u_op u ++ str " ") ++ a ++ grayed [] (str ")") ++ r /\
    shows_expected whole (limit d 120) (u_e u) (u_expection u) e /\ shows_actual whole (limit d 120) (u_a u) (u_represent u) a /\ shows_rest false (u_explain u) (u_user u) (u_filine u) r.
Proof.
  intros d ci u t T O R We Ve Na Wa Va. destruct (expected_ok d u We Ve) as (le & e & E1 & L1 & S1). destruct (actual_ok d u Na Wa Va) as (la & a & E2 & L2 & S2).
  assert (EP : print_OK2 d t u = Some ([t] ++ gray (str "(") ++ le ++ [str " "] ++ [u_op u] ++ [str " "] ++ la ++ gray (str ")"))) by (unfold print_OK2; rewrite E1; cbn [bind]; rewrite E2; reflexivity).
  assert (ST : is_style t = false) by (destruct T as [(_ & ->)|(_ & ->)]; reflexivity).
  assert (LP : leaves [] ([t] ++ gray (str "(") ++ le ++ [str " "] ++ [u_op u] ++ [str " "] ++ la ++ gray (str ")")) (letters [] t ++ grayed [] (str "(") ++ e ++ letters [] (str " ") ++ letters [] (u_op u) ++ letters [] (str " ") ++ a ++ grayed [] (str ")"))).
  { repeat (apply leaves_app); try assumption; try (apply leaves_word; first [exact ST|reflexivity|apply no_esc, O]); apply leaves_gray; first [apply c_none|reflexivity]. }
  edestruct (message_ok d ci u) as (m & r & M & I & B & SR); [exact R| |exact LP|].
  { destruct T as [(-> & ->)|(-> & ->)]; rewrite EP; reflexivity. }
  exists m, e, a, r. split; [exact M|]. split; [exact B|]. split; [|split; [exact S1|split; [exact S2|exact SR]]]. rewrite I, !letters_app, <- !app_assoc. reflexivity.
Qed.
Lemma one_side : forall d ci u t, (u_type u = TOK1 /\ t = str "OK") \/ (u_type u = TKO1 /\ t = str "KO") -> rest_fine u -> legible (u_a u) -> whole_value whole (u_represent u) -> ~ void (u_represent u) ->
  exists m v r, message d ci u = Some m /\ behind_line [] m = [] /\
    ink [] m = letters [] (repeat 32 (2 * ci + 1) ++ t) ++ grayed [] (str "(") ++ quoted (letters cyan (u_a u)) ++ grayed [] (str ")") ++ v ++ r /\
    (tells (spelled (u_a u)) (spelled (spoken (u_represent u))) -> v = []) /\
    (~ tells (spelled (u_a u)) (spelled (spoken (u_represent u))) -> exists x, shown_value whole red (u_represent u) x /\ v = letters [] (str " is ") ++ x) /\
    shows_rest false (u_explain u) (u_user u) (u_filine u) r.
Proof.
  intros d ci u t T R (Ne & C & cs & Ea & G) Wv NV. destruct (gray_quote_word cyan cs c_cyan G) as (q & E1 & L1); [rewrite <- Ea; exact Ne|rewrite <- Ea; apply C|]. rewrite <- Ea in E1, L1.
  destruct (synonym_ok (u_a u) (spoken (u_represent u))) as (same & S1 & S2); [apply nonvoid_spelled; [exact NV|apply Wv]|].
  destruct (value_ok whole (str "bold,red") red (u_represent u) Wv) as (lv & x & A2 & B2 & C2); [pose proof whole7; lia|apply col_red|].
  set (lx := if same then [] else str " is " :: lv). set (v := if same then [] else letters [] (str " is ") ++ x).
  assert (EP : print_OK1 t u = Some ([t] ++ gray (str "(") ++ brush (str "cyan") q ++ gray (str ")") ++ lx)).
  { unfold print_OK1. rewrite E1. cbn [bind]. rewrite text_spoken, S1. cbn [bind]. unfold lx. destruct same; [reflexivity|]. rewrite A2. reflexivity. }
  assert (Lv : leaves [] lx v). { unfold lx, v. destruct same; [apply leaves_nil|]. apply (leaves_app [] [str " is "]); [apply leaves_word; reflexivity|exact C2]. }
  assert (ST : is_style t = false) by (destruct T as [(_ & ->)|(_ & ->)]; reflexivity).
  assert (LP : leaves [] ([t] ++ gray (str "(") ++ brush (str "cyan") q ++ gray (str ")") ++ lx) (letters [] t ++ grayed [] (str "(") ++ quoted (letters cyan (u_a u)) ++ grayed [] (str ")") ++ v)).
  { apply leaves_app; [apply leaves_word, ST|]. apply leaves_app; [apply leaves_gray; [apply c_none|reflexivity]|]. apply leaves_app; [rewrite <- (proj1 L1); apply leaves_brush, col_cyan|]. apply leaves_app; [apply leaves_gray; [apply c_none|reflexivity]|exact Lv]. }
  edestruct (message_ok d ci u) as (m & r & M & I & B & SR); [exact R| |exact LP|].
  { destruct T as [(-> & ->)|(-> & ->)]; rewrite EP; reflexivity. }
  exists m, v, r. split; [exact M|]. split; [exact B|]. split; [rewrite I, !letters_app, <- !app_assoc; reflexivity|]. split; [|split; [|exact SR]].
  - intros K. apply S2 in K. unfold v. rewrite K. reflexivity.
  - intros K. exists x. split; [exact B2|]. unfold v. destruct same; [exfalso; apply K, S2; reflexivity|reflexivity].
Qed.
(** JE *)
Lemma unenclose_peeled : forall q s t, s <> [] -> s <> [q] -> peeled q s t -> unenclose q q s = Some t.
Proof.
  intros q s t N1 N2 [E|(-> & H)].
  - subst s. unfold unenclose. rewrite N.eqb_refl. change (q :: t ++ [q]) with ((q :: t) ++ [q]). rewrite last_last, N.eqb_refl. cbn [app andb]. destruct (t ++ [q]) eqn:Q; [destruct t; discriminate|]. rewrite <- Q, removelast_last. reflexivity.
  - destruct s as [|c r]; [congruence|]. unfold unenclose. destruct ((c =? q) && (last (c :: r) 0 =? q)) eqn:Q; [|reflexivity]. exfalso. apply andb_true_iff in Q. rewrite !N.eqb_eq in Q. destruct Q as (-> & Q).
    destruct r as [|x r]; [congruence|]. apply H. exists (removelast (x :: r)). f_equal. assert (Nx : x :: r <> []) by discriminate. rewrite (app_removelast_last 0 Nx) at 1. f_equal. f_equal. exact Q.
Qed.
Lemma json_side_ok : forall d style st s t, json_fine (limit d 30) s t -> colour st -> restyle ([27; 123] ++ style ++ [125]) [] = st ->
  exists l x, json_side d style s = Some l /\ shown (limit d 30) 2 st t x /\ leaves [] l x.
Proof.
  intros d style st s t (A & B & x & P1 & C & D & P2 & Cm & FP) Cs R. unfold json_side. rewrite (unenclose_peeled 34 s x A B P1). cbn [bind]. rewrite (unenclose_peeled 39 x t C D P2). cbn [bind].
  apply word_ok; try assumption; [pose proof (limit7 d 30); lia|lia].
Qed.
Lemma json_message : forall d ci u e a, u_type u = TJE -> rest_fine u -> json_fine (limit d 30) (u_e u) e -> json_fine (limit d 30) (u_a u) a ->
  exists m x y r, message d ci u = Some m /\ behind_line [] m = [] /\
    ink [] m = letters [] (repeat 32 (2 * ci + 1) ++ str "JE") ++ grayed [] (str "(") ++ x ++ letters [] (str ", ") ++ y ++ grayed [] (str ")") ++ r /\
    shown (limit d 30) 2 cyan e x /\ shown (limit d 30) 2 red a y /\ shows_rest false (u_explain u) (u_user u) (u_filine u) r.
Proof.
  intros d ci u e a T R Je Ja. destruct (json_side_ok d (str "cyan") cyan _ _ Je c_cyan col_cyan) as (le & x & E1 & S1 & L1). destruct (json_side_ok d (str "bold,red") red _ _ Ja c_red col_red) as (la & y & E2 & S2 & L2).
  assert (EP : print_JE d u = Some ([str "JE"] ++ gray (str "(") ++ le ++ [str ", "] ++ la ++ gray (str ")"))) by (unfold print_JE; rewrite E1; cbn [bind]; rewrite E2; reflexivity).
  assert (LP : leaves [] ([str "JE"] ++ gray (str "(") ++ le ++ [str ", "] ++ la ++ gray (str ")")) (letters [] (str "JE") ++ grayed [] (str "(") ++ x ++ letters [] (str ", ") ++ y ++ grayed [] (str ")"))).
  { repeat (apply leaves_app); try assumption; try (apply leaves_word; reflexivity); apply leaves_gray; first [apply c_none|reflexivity]. }
  edestruct (message_ok d ci u) as (m & r & M & I & B & SR); [exact R|rewrite T, EP; reflexivity|exact LP|].
  exists m, x, y, r. split; [exact M|]. split; [exact B|]. split; [|auto]. rewrite I, !letters_app, <- !app_assoc. reflexivity.
Qed.
Lemma number_ok : forall n, exists o, leaves [] (number n) o /\ shows_number n o.
Proof.
  intros [n|]; cbn [number shows_number]; [|exists []; split; [apply leaves_nil|reflexivity]].
  eexists. split; [apply leaves_printf, no_esc|exists (dec n); split; [apply dec_ok|reflexivity]].
  intros H. apply in_app_iff in H. destruct H as [H|H]; [|cbn in H; intuition discriminate]. pose proof (dec_ok n) as (F & _). rewrite Forall_forall in F. specialize (F _ H). lia.
Qed.

Lemma inner_message : forall d ci u, u_type u = TIn -> rest_fine u -> whole_value (limit d 120) (u_expection u) -> whole_value (limit d 120) (u_represent u) ->
  exists m n v r, message d ci u = Some m /\ behind_line [] m = [] /\ ink [] m = letters [] (repeat 32 (2 * ci + 1)) ++ n ++ v ++ r /\
    shows_number (u_seqno u) n /\ shows_values (limit d 120) (u_expection u) (u_represent u) v /\
    shows_rest (match v with [] => false | _ => true end) (u_explain u) (u_user u) (u_filine u) r.
Proof.
  intros d ci u T R Ve Va. destruct (number_ok (u_seqno u)) as (n & Ln & Sn).
  destruct (width_void _ (proj1 Ve)) as (we & Ee & V1). destruct (width_void _ (proj1 Va)) as (wa & Ea & V2).
  destruct (value_ok (limit d 120) (str "green") green (u_expection u) Ve) as (l1 & x & A1 & B1 & C1); [pose proof (limit7 d 120); lia|apply col_green|].
  destruct (value_ok (limit d 120) (str "bold,red") red (u_represent u) Va) as (l2 & y & A2 & B2 & C2); [pose proof (limit7 d 120); lia|apply col_red|].
  set (le := if (we =? 0)%nat then [] else str "expect is " :: l1). set (oe := if (we =? 0)%nat then [] else letters [] (str "expect is ") ++ x).
  set (ce := if (we =? 0)%nat then 0%nat else 1%nat).
  set (la := if (wa =? 0)%nat then [] else ((if (ce =? 0)%nat then [] else str ", ") ++ str "actual is ") :: l2). set (oa := if (wa =? 0)%nat then [] else letters [] ((if (ce =? 0)%nat then [] else str ", ") ++ str "actual is ") ++ y).
  set (ca := if (wa =? 0)%nat then ce else S ce).
  assert (EP : print_In d u = Some (number (u_seqno u) ++ le ++ la, ca)).
  { unfold print_In. rewrite Ee. cbn [bind]. rewrite Ea. rewrite A1, A2. unfold la, le, ca, ce. destruct (we =? 0)%nat; cbn [bind option_map]; destruct (wa =? 0)%nat; reflexivity. }
  assert (Le : leaves [] le oe). { unfold le, oe. destruct (we =? 0)%nat; [apply leaves_nil|]. apply (leaves_app [] [str "expect is "]); [apply leaves_word; reflexivity|exact C1]. }
  assert (La : leaves [] la oa). { unfold la, oa. destruct (wa =? 0)%nat; [apply leaves_nil|]. apply (leaves_app [] [_]); [apply leaves_word; destruct (ce =? 0)%nat; reflexivity|exact C2]. }
  destruct (message_ok d ci u (number (u_seqno u) ++ le ++ la) ca (n ++ oe ++ oa) R) as (m & r & M & I & B & SR); [rewrite T; exact EP|apply leaves_app; [exact Ln|apply leaves_app; assumption]|].
  exists m, n, (oe ++ oa), r. split; [exact M|]. split; [exact B|]. split; [rewrite I, <- !app_assoc; reflexivity|]. split; [exact Sn|]. split.
  - exists oe, oa. split; [reflexivity|]. split; [intros K; apply V1 in K; unfold oe; rewrite K; reflexivity|]. split.
    + intros K. rewrite <- V1 in K. exists x. split; [exact B1|]. unfold oe. destruct (Nat.eqb_spec we 0); [contradiction|reflexivity].
    + split; [intros K; apply V2 in K; unfold oa; rewrite K; reflexivity|]. intros K. rewrite <- V2 in K. exists y. split; [exact B2|]. unfold oa. destruct (Nat.eqb_spec wa 0); [contradiction|]. unfold oe, ce. destruct (we =? 0)%nat; reflexivity.
  - replace (match oe ++ oa with [] => false | _ => true end) with (negb (ca =? 0)%nat); [exact SR|]. unfold oe, oa, ca, ce. destruct (we =? 0)%nat, (wa =? 0)%nat; reflexivity.
Qed.
Lemma normal_ok : forall ci n ex f, closed ex -> ~ In 27 f -> exists no z, ink [] (normal_message ci n ex f) = letters [] (repeat 32 (2 * ci + 1)) ++ no ++ ink [] ex ++ z /\ behind_line [] (normal_message ci n ex f) = [] /\ shows_number n no /\ shows_place f z.
Proof.
  intros ci n ex f C F. destruct (number_ok n) as (no & Ln & Sn). destruct (place_ok f F) as (z & Lz & Sz). exists no, z. unfold normal_message. replace (2 * ci)%nat with (ci * 2)%nat by lia.
  assert (L : leaves [] (indent [] (ci * 2 + 1) ++ number n ++ ex ++ locate f) (letters [] (repeat 32 (ci * 2 + 1)) ++ no ++ ink [] ex ++ z)).
  { apply leaves_app; [apply indent_ok|]. apply leaves_app; [exact Ln|]. apply leaves_app; [split; [reflexivity|exact C]|exact Lz]. }
  destruct L as (A & B). auto.
Qed.
(** texts of one byte characters *)
Definition ascii_text (s : bytes) : bool := forallb (fun c => (0 <? c) && negb (c =? 27) && (c <? 128)) s.
Lemma ascii_plain : forall s, ascii_text s = true -> Forall plain s.
Proof. intros s H. apply Forall_forall. intros c I. unfold ascii_text in H. rewrite forallb_forall in H. apply H in I. rewrite !andb_true_iff, negb_true_iff, N.eqb_neq, !N.ltb_lt in I. unfold plain. lia. Qed.
Lemma plain_calm : forall s, Forall plain s -> calm s.
Proof. intros s H. rewrite Forall_forall in H. split; intros I; apply H in I; unfold plain in I; lia. Qed.
Lemma ascii_wholesome : forall W s, s <> [] -> ascii_text s = true -> wholesome W s.
Proof. intros W s N0 H. apply ascii_plain in H. split; [exact N0|]. split; [apply plain_calm, H|right; exact H]. Qed.
Lemma plain_good : forall s, Forall plain s -> Forall good_char (map (fun c => [c]) s).
Proof. intros s H. rewrite Forall_forall in H. apply Forall_forall. intros c C. apply in_map_iff in C. destruct C as (b & <- & B). apply H in B. unfold plain in B. split; [apply char1; lia|]. split; [intros [K|[]]; lia|cbn; lia]. Qed.
Lemma concat_singles : forall s : bytes, concat (map (fun c => [c]) s) = s. Proof. induction s as [|c s IH]; [reflexivity|]. cbn. f_equal. exact IH. Qed.
Lemma ascii_legible : forall s, s <> [] -> ascii_text s = true -> legible s.
Proof. intros s N0 H. apply ascii_plain in H. split; [exact N0|]. split; [apply plain_calm, H|]. exists (map (fun c => [c]) s). split; [symmetry; apply concat_singles|apply plain_good, H]. Qed.
Lemma ascii_proper : forall s, ascii_text s = true -> proper [s].
Proof.
  intros s H. pose proof (ascii_plain s H) as P. exists (map Cell (map (fun c => [c]) s) ++ []). rewrite <- (concat_singles s) at 1. apply SWord; [rewrite concat_singles; apply no_esc, (plain_calm s P)| |constructor].
  eapply Forall_impl; [|apply plain_good, P]. intros c C. apply C.
Qed.
Lemma ascii_value : forall W s, ascii_text s = true -> whole_value W [s].
Proof.
  intros W s H. pose proof (ascii_plain s H) as P. pose proof (plain_calm s P) as C. assert (E : spoken [s] = s) by (unfold spoken; cbn; rewrite (no_esc s (proj1 C)); apply app_nil_r).
  split; [apply ascii_proper, H|]. rewrite E. split; [apply C|right; exact P].
Qed.
