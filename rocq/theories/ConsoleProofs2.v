From Coq Require Import List NArith ZArith Bool Arith Lia.
From Verif Require Import Base RunnerModel JunitModel JunitSpec JunitProofs ListingModel ListingSpec ListingProofs ConsoleModel ConsoleSpec ConsoleProofs.
Import ListNotations.
Local Open Scope N_scope.

Lemma details_ok : forall want t s L, (match t_details t with Some ds => Forall still ds | None => True end) -> ready s L [] ->
  index (print_details want t s) = index s /\ ready (print_details want t s) (L ++ (match t_details t with Some ds => if want then ds ++ [[]] else [] | None => [] end)) [].
Proof.
  intros want t s L D R. unfold print_details. destruct (t_details t) as [ds|]; [|rewrite app_nil_r; auto]. destruct want; [|rewrite app_nil_r; auto]. split; [reflexivity|].
  rewrite app_assoc. apply emit_newline; [apply still_nil|]. apply emit_lines; assumption.
Qed.

(** figures of a passed case *)
Lemma comma_if_cons : forall x, x <> [] -> comma_if x = str ", ".
Proof. intros [|c x] H; [congruence|reflexivity]. Qed.
Lemma app_nonempty : forall (a b : bytes), a <> [] -> a ++ b <> [].
Proof. intros [|c a] b H; [congruence|discriminate]. Qed.
Lemma fixed_nonempty : forall up k a b, fixed up k a b <> [].
Proof. intros. unfold fixed. apply app_nonempty, dec_nonempty. Qed.
Lemma volume_nonempty : forall l n, format_volume l n <> [].
Proof. intros. unfold format_volume. repeat match goal with |- context [if ?b then _ else _] => destruct b end; try apply dec_nonempty; apply app_nonempty, fixed_nonempty. Qed.
Lemma duration_nonempty : forall l n, format_duration l n <> [].
Proof. intros. unfold format_duration. repeat match goal with |- context [if ?b then _ else _] => destruct b end; apply app_nonempty; first [apply dec_nonempty|apply fixed_nonempty]. Qed.
Lemma units_nonempty : forall n u, format_units n u <> [].
Proof. intros. unfold format_units. apply app_nonempty, dec_nonempty. Qed.
Definition opt_text (n : N) (t : bytes) : list bytes := if 0 <? n then [t] else [].
Lemma opt_ok : forall n t (P : N -> bytes -> Prop), P n t -> optional n P (opt_text n t).
Proof. intros n t P H. unfold optional, opt_text. destruct (N.ltb_spec 0 n); [right; split; [lia|eauto]|left; split; [lia|reflexivity]]. Qed.
Lemma L2 : forall x y, Listed [x; y] (x ++ str ", " ++ y).
Proof. intros. repeat constructor. Qed.
Lemma L3 : forall x y z, Listed [x; y; z] ((x ++ str ", " ++ y) ++ str ", " ++ z).
Proof. intros. rewrite <- !app_assoc. repeat constructor. Qed.
Lemma case_line_listed : forall l t, Listed (opt_text (t_asserts t) (format_units (t_asserts t) (str " assert")) ++ opt_text (t_footprint t) (format_volume l (t_footprint t) ++ str " footprint") ++ opt_text (t_ms t) (format_duration l (t_ms t))) (case_line l t).
Proof.
  intros l t. unfold case_line, opt_text. pose proof (units_nonempty (t_asserts t) (str " assert")) as U. pose proof (volume_nonempty l (t_footprint t)) as V.
  set (u := format_units (t_asserts t) (str " assert")) in *. set (v := format_volume l (t_footprint t)) in *. set (d := format_duration l (t_ms t)).
  assert (V2 : v ++ str " footprint" <> []) by (apply app_nonempty; exact V). set (w := v ++ str " footprint") in *. clearbody u w d.
  destruct (0 <? t_asserts t), (0 <? t_footprint t), (0 <? t_ms t); change (comma_if []) with (@nil N); cbn [app]; rewrite ?(comma_if_cons (u ++ _)) by (apply app_nonempty; exact U); rewrite ?(comma_if_cons u) by exact U; rewrite ?(comma_if_cons w) by exact V2;
    first [apply L3|apply L2|apply L_one|apply L_nil].
Qed.
Definition figures (l : look) (t : turn) : bytes := match case_line l t with [] => [] | x => str "- " ++ x end.
Lemma figures_ok : forall l t, case_figures t (figures l t).
Proof.
  intros l t. eexists _, _, _, _. split; [apply opt_ok, numbered_ok|]. split; [apply opt_ok; eexists; split; [apply volume_ok|reflexivity]|]. split; [apply opt_ok, duration_ok|].
  split; [apply (case_line_listed l)|]. unfold figures. destruct (case_line l t); reflexivity.
Qed.
Lemma case_line_still : forall l t, still (case_line l t).
Proof.
  intros l t. unfold case_line. assert (C : forall x, still (comma_if x)) by (intros [|c x]; apply still_word; reflexivity).
  destruct (0 <? t_asserts t), (0 <? t_footprint t), (0 <? t_ms t); stills; first [apply C|apply volume_still|apply duration_still|apply units_still; stills].
Qed.

Lemma verdict_ok : forall l h t s L, still (h_name h) -> still_turn t -> still_fit l -> inv s L -> t_todo t = false \/ t_filtered t = true \/ t_ignored t = true \/ t_todo t = true ->
  let s2 := case_endup l h t s in index s2 = index s /\ exists b, verdict_lines l h (index s) t b /\ inv s2 (L ++ b).
Proof.
  intros l h t s L H (TN & TF & TO & TD) F V _.
  assert (TF2 : still (basefile (t_filine t))) by (apply basefile_still, TF).
  assert (TT : still (format_title (h_name h) (t_name t) (Some (basefile (t_filine t))))) by (rewrite format_title_some; stills; first [apply titled_still; assumption|apply bar_still]).
  unfold case_endup, verdict_lines, class_of, has_line. cbn zeta.
  destruct (t_filtered t) eqn:E1; cbn [orb].
  { split; [reflexivity|]. exists []. rewrite app_nil_r. split; [|exact V]. destruct (t_ignored t); reflexivity. }
  destruct (t_ignored t) eqn:E2; cbn [orb].
  { split; [reflexivity|]. exists []. rewrite app_nil_r. auto. }
  destruct (t_todo t) eqn:E3.
  { assert (W : still (if h_absent h then str "TODO   " else str "Todo   ")) by (destruct (h_absent h); stills).
    destruct (5 <=? verbose l).
    - destruct (bar_ok l true _ _ false s L W TT F V) as (A & B & C & R). split; [exact A|]. exists []. rewrite app_nil_r. split; [reflexivity|]. eapply ready_inv, R.
    - split; [reflexivity|]. exists []. rewrite app_nil_r. auto. }
  destruct (t_failed t) eqn:E4.
  { destruct (N.leb_spec 1 (verbose l)) as [G|G], (N.eqb_spec (verbose l) 0) as [G2|G2]; try lia; cbn [negb].
    - destruct (bar_ok l true (str "Failed ") _ false s L ltac:(stills) TT F V) as (A & B & C & R). rewrite andb_false_r in R. cbn zeta in R.
      apply emit_newline in R; [|stills; apply pct_still].
      destruct (details_ok (4 <=? verbose l) t _ _ TD R) as (I1 & R2). split; [rewrite I1; exact A|]. rewrite <- app_assoc in R2. eexists. split; [|eapply ready_inv, R2].
      eexists _, _, []. split; [apply pct_ok|]. split; [apply basefile_part|]. split; [reflexivity|]. rewrite format_title_some, app_nil_r. reflexivity.
    - split; [reflexivity|]. exists []. rewrite app_nil_r. auto. }
  destruct (t_warning t) eqn:E5.
  { destruct (N.leb_spec 2 (verbose l)) as [G|G].
    - destruct (bar_ok l true (str "Warning") _ false s L ltac:(stills) TT F V) as (A & B & C & R). rewrite andb_false_r in R. cbn zeta in R.
      apply emit_newline in R; [|stills; apply pct_still].
      destruct (details_ok (4 <? verbose l) t _ _ TD R) as (I1 & R2). split; [rewrite I1; exact A|]. rewrite <- app_assoc in R2. eexists. split; [|eapply ready_inv, R2].
      eexists _, _, []. split; [apply pct_ok|]. split; [apply basefile_part|]. split; [reflexivity|]. rewrite format_title_some, app_nil_r.
      replace (4 <? verbose l) with (5 <=? verbose l) by (destruct (N.leb_spec 5 (verbose l)), (N.ltb_spec 4 (verbose l)); try reflexivity; lia). reflexivity.
    - split; [reflexivity|]. exists []. rewrite app_nil_r. auto. }
  replace ((5 <=? verbose l) || (verbose l =? 3)) with ((verbose l =? 3) || (5 <=? verbose l)) by apply orb_comm.
  destruct ((verbose l =? 3) || (5 <=? verbose l)).
  - destruct (bar_ok l true (str "Passed ") _ false s L ltac:(stills) TT F V) as (A & B & C & R). rewrite andb_false_r in R. cbn zeta in R.
    set (s1 := print_bar l true (str "Passed ") (format_title (h_name h) (t_name t) (Some (basefile (t_filine t)))) false s) in *.
    set (cur := pct l (index s) ++ str "Passed " ++ format_title (h_name h) (t_name t) (Some (basefile (t_filine t)))) in *.
    assert (SC : still cur) by (unfold cur; stills; apply pct_still).
    set (x := if 5 <=? verbose l then figures l t else []).
    assert (SX : still x).
    { unfold x, figures. destruct (5 <=? verbose l); [|apply still_nil]. pose proof (case_line_still l t) as Q. destruct (case_line l t); stills. }
    assert (R2 : index (if 5 <=? verbose l then (match case_line l t with [] => s1 | y => emit (str "- " ++ y) s1 end) else s1) = index s /\ ready (if 5 <=? verbose l then (match case_line l t with [] => s1 | y => emit (str "- " ++ y) s1 end) else s1) L (cur ++ x)).
    { unfold x, figures in *. destruct (5 <=? verbose l); [|rewrite app_nil_r; auto]. destruct (case_line l t) eqn:Q; [rewrite app_nil_r; auto|]. split; [exact A|]. apply emit_still; assumption. }
    destruct R2 as (I1 & R2). split; [exact I1|]. apply emit_newline in R2; [|stills]. eexists. split; [|eapply ready_inv, R2].
    eexists _, _, x. split; [apply pct_ok|]. split; [apply basefile_part|]. split; [unfold x; cbn [andb]; destruct (5 <=? verbose l); [apply figures_ok|reflexivity]|].
    unfold cur. rewrite format_title_some, <- !app_assoc. destruct (t_details t); reflexivity.
  - split; [reflexivity|]. exists []. rewrite app_nil_r. auto.
Qed.

Lemma turn_ok : forall l h t s L, still (h_name h) -> still_turn t -> still_fit l -> inv s L ->
  index (one_turn l h s t) = index s + 1 /\ exists a b, output_lines l h (index s + 1) t a /\ verdict_lines l h (index s + 1) t b /\ inv (one_turn l h s t) (L ++ a ++ b).
Proof.
  intros l h t s L H ST F V. pose proof ST as (TN & TF & TO & TD). unfold one_turn, case_start. cbn zeta.
  set (s1 := mkcon (index s + 1) (last s) (cap s) (back s) (dev s)).
  assert (V1 : inv s1 L) by exact V. assert (I1 : index s1 = index s + 1) by reflexivity. rewrite <- I1. clearbody s1.
  assert (M : forall s2, index s2 = index s1 -> (exists a, output_lines l h (index s1) t a /\ inv s2 (L ++ a)) ->
    index (case_endup l h t s2) = index s1 /\ exists a b, output_lines l h (index s1) t a /\ verdict_lines l h (index s1) t b /\ inv (case_endup l h t s2) (L ++ a ++ b)).
  { intros s2 I2 (a & OA & VA). destruct (verdict_ok l h t s2 _ H ST F VA) as (I3 & b & VB & W); [destruct (t_todo t); auto|]. rewrite I2 in *. split; [exact I3|].
    exists a, b. rewrite app_assoc. auto. }
  destruct (t_filtered t || t_ignored t || t_todo t) eqn:E.
  - replace (t_todo t || t_filtered t || t_ignored t) with true by (destruct (t_filtered t), (t_ignored t), (t_todo t); auto).
    apply M; [reflexivity|]. exists []. rewrite app_nil_r. split; [|exact V1]. unfold output_lines, class_of. destruct (t_filtered t), (t_ignored t), (t_todo t); try reflexivity. discriminate.
  - replace (t_todo t || t_filtered t || t_ignored t) with false by (destruct (t_filtered t), (t_ignored t), (t_todo t); auto).
    assert (K : class_of t = Failed \/ class_of t = Warning \/ class_of t = Passed).
    { unfold class_of. apply orb_false_iff in E as [E ->]. apply orb_false_iff in E as [-> ->]. destruct (t_failed t), (t_warning t); auto. }
    destruct (bar_ok l true (str "Testing") (format_title (h_name h) (t_name t) None) true s1 L) as (A & B & C & R); auto; [stills|rewrite format_title_none; apply titled_still; assumption|].
    rewrite format_title_none in *. set (s2 := print_bar l true (str "Testing") (titled (h_name h) (t_name t)) true s1) in *. rewrite andb_true_r in C, R. cbn zeta in R.
    assert (O : output_lines l h (index s1) t (if (verbose l <? 4) || match t_out t with [] => true | _ => false end then []
      else if progressing l then fit l (pct l (index s1) ++ str "Testing" ++ titled (h_name h) (t_name t)) :: lines (t_out t) else lines (t_out t))).
    { unfold output_lines. destruct K as [ -> |[ -> | -> ]]; destruct ((verbose l <? 4) || _); try reflexivity; pose proof (pct_ok l (index s1)) as PO; destruct (progressing l); try reflexivity; eexists; split; try exact PO; reflexivity. }
    apply M.
    + unfold user_output. destruct (t_out t); [exact A|]. destruct (verbose l <? 4); exact A.
    + eexists. split; [exact O|]. destruct (N.ltb_spec (verbose l) 4) as [G|G]; cbn [orb].
      * rewrite app_nil_r. replace (user_output l (t_out t) s2) with s2; [eapply ready_inv, R|]. unfold user_output. destruct (t_out t); [reflexivity|]. apply N.ltb_lt in G. rewrite G. reflexivity.
      * destruct (t_out t) as [|c o] eqn:TT; [rewrite app_nil_r; eapply ready_inv, R|]. rewrite <- TT in *.
        assert (NE : t_out t <> []) by (rewrite TT; discriminate).
        assert (SC : still (if negb (progressing l) then [] else fit l (pct l (index s1) ++ str "Testing" ++ titled (h_name h) (t_name t)))).
        { destruct (negb (progressing l)); [apply still_nil|]. apply F. stills; first [apply pct_still|apply titled_still; assumption]. }
        destruct (user_ok l (t_out t) s2 L _ SC TO R NE G) as (I3 & W). rewrite C in W. destruct (progressing l); cbn [negb] in W; [exact W|].
        destruct (lines_cons (t_out t)) as (x & y & Q). rewrite Q in *. exact W.
Qed.
Lemma turns_ok : forall l h ts s L, still (h_name h) -> Forall still_turn ts -> still_fit l -> inv s L ->
  let s2 := fold_left (one_turn l h) ts s in index s2 = index s + N.of_nat (length ts) /\ exists a, TurnLines l h (index s) ts a /\ inv s2 (L ++ a).
Proof.
  induction ts as [|t ts IH]; intros s L H ST F V; cbn [fold_left length].
  - cbn zeta. split; [lia|]. exists []. rewrite app_nil_r. split; [constructor|exact V].
  - inversion ST; subst. destruct (turn_ok l h t s L H H2 F V) as (I1 & a & b & OA & VB & W). destruct (IH _ _ H H3 F W) as (I2 & c & TC & W2). cbn zeta in *. split; [rewrite I2, I1; lia|].
    rewrite I1 in TC. exists (a ++ b ++ c). split; [constructor; assumption|]. rewrite <- !app_assoc in W2. exact W2.
Qed.

(** lists of numbers *)
Lemma add_stat_ok : forall l n w, add_stat n (32 :: w) (texts l) = texts (l ++ counted n w).
Proof. intros. unfold add_stat, counted. destruct (n =? 0)%Z; [rewrite app_nil_r; reflexivity|]. rewrite texts_snoc. reflexivity. Qed.
Lemma texts_tail : forall l n w, texts ((n, w) :: l) = dec n ++ str " " ++ w ++ concat (map (fun x => str ", " ++ dec (fst x) ++ str " " ++ snd x) l).
Proof.
  induction l as [|[m v] l IH]; intros n w.
  - cbn. rewrite app_nil_r. reflexivity.
  - change (texts ((n, w) :: (m, v) :: l)) with (dec n ++ str " " ++ w ++ str ", " ++ texts ((m, v) :: l)). rewrite IH. cbn [map concat fst snd]. rewrite <- !app_assoc. reflexivity.
Qed.
Lemma texts_still : forall l, Forall (fun x => still (snd x)) l -> still (texts l).
Proof.
  intros [|[n w] l] H; [apply still_nil|]. inversion H as [|? ? W H2]; subst. rewrite texts_tail. cbn [snd] in W. stills. clear H W n w. induction H2 as [|[m v] l W H2 IH]; [apply still_nil|].
  cbn [map concat fst snd] in *. stills.
Qed.
Lemma counted_still : forall n w, still w -> Forall (fun x : N * bytes => still (snd x)) (counted n w).
Proof. intros. unfold counted. destruct (n =? 0)%Z; constructor; [assumption|constructor]. Qed.
Lemma nonzero_counts : forall st, nonzero [passed st; warning st; failed st; todo st; filtered st; ignored st] = N.of_nat (length (counts_of st)).
Proof.
  intros st. unfold nonzero, counts_of, counted. f_equal. cbn [filter].
  destruct (passed st =? 0)%Z, (failed st =? 0)%Z, (warning st =? 0)%Z, (todo st =? 0)%Z, (filtered st =? 0)%Z, (ignored st =? 0)%Z; reflexivity.
Qed.
Definition others (st : stats) : list (N * bytes) :=
  counted (failed st) (str "failed") ++ counted (warning st) (str "warning") ++ counted (todo st) (str "todo") ++ counted (filtered st) (str "filtered") ++ counted (ignored st) (str "ignored").
Lemma nonzero_others : forall st, nonzero [failed st; warning st; todo st; filtered st; ignored st] = N.of_nat (length (others st)).
Proof.
  intros st. unfold nonzero, others, counted. f_equal. cbn [filter].
  destruct (failed st =? 0)%Z, (warning st =? 0)%Z, (todo st =? 0)%Z, (filtered st =? 0)%Z, (ignored st =? 0)%Z; reflexivity.
Qed.
Lemma counts_still : forall st, Forall (fun x : N * bytes => still (snd x)) (counts_of st).
Proof. intros. unfold counts_of. repeat (apply Forall_app; split); apply counted_still; stills. Qed.
Lemma others_still : forall st, Forall (fun x : N * bytes => still (snd x)) (others st).
Proof. intros. unfold others. repeat (apply Forall_app; split); apply counted_still; stills. Qed.

Lemma then_if_ok : forall n m t (P : bytes -> Prop), P t -> (n <? m) = true -> then_if (n <? m) P (str ", " ++ t).
Proof. intros n m t P H ->. exists t. auto. Qed.
Lemma then_ok : forall b t (P : bytes -> Prop), P t -> then_if b P (if b then str ", " ++ t else []).
Proof. intros [|] t P H; [exists t; auto|reflexivity]. Qed.

(** the counts of a suite *)
Definition suite_counts (l : look) (h : show) : bytes := texts (counts_of (h_stats h)).
Lemma suite_line_eq : forall l h, suite_line l h = str "suite " ++ h_name h ++ (if (2 <=? length (counts_of (h_stats h)))%nat then str " (" ++ texts (counts_of (h_stats h)) ++ str ")" else str " - " ++ texts (counts_of (h_stats h))) ++
  (match h_turns h with [] => [] | [_] => str " case" | _ => str " cases" end) ++
  (if negb (h_asserts h =? 0) then str ", " ++ format_units (h_asserts h) (str " assert") else []) ++
  (if negb (h_footprint h =? 0) then str ", " ++ format_volume l (h_footprint h) ++ str " footprint" else []) ++
  (if 2 <=? h_ms h then str ", " ++ format_duration l (h_ms h) else []).
Proof.
  intros l h. unfold suite_line. cbn zeta.
  change (add_stat (passed (h_stats h)) (str " passed") []) with (add_stat (passed (h_stats h)) (32 :: str "passed") (texts [])).
  change (str " failed") with (32 :: str "failed"). change (str " warning") with (32 :: str "warning"). change (str " todo") with (32 :: str "todo"). change (str " filtered") with (32 :: str "filtered"). change (str " ignored") with (32 :: str "ignored").
  rewrite !add_stat_ok. cbn [app]. rewrite <- !app_assoc. fold (counts_of (h_stats h)). rewrite nonzero_counts.
  replace (1 <? N.of_nat (length (counts_of (h_stats h)))) with (2 <=? length (counts_of (h_stats h)))%nat by (destruct (N.ltb_spec 1 (N.of_nat (length (counts_of (h_stats h))))), (Nat.leb_spec 2 (length (counts_of (h_stats h)))); try reflexivity; lia).
  assert (U : (if 0 <? N.of_nat (length (h_turns h)) then units (N.of_nat (length (h_turns h))) (str " case") else []) = match h_turns h with [] => [] | [_] => str " case" | _ => str " cases" end).
  { destruct (h_turns h) as [|a [|b r]]; [reflexivity|reflexivity|]. cbn [length]. destruct (N.ltb_spec 0 (N.of_nat (S (S (length r))))); [|lia]. unfold units. destruct (N.ltb_spec 1 (N.of_nat (S (S (length r))))); [reflexivity|lia]. }
  rewrite U. replace (0 <? h_asserts h) with (negb (h_asserts h =? 0)) by (destruct (N.ltb_spec 0 (h_asserts h)), (N.eqb_spec (h_asserts h) 0); try reflexivity; lia).
  replace (0 <? h_footprint h) with (negb (h_footprint h =? 0)) by (destruct (N.ltb_spec 0 (h_footprint h)), (N.eqb_spec (h_footprint h) 0); try reflexivity; lia).
  replace (1 <? h_ms h) with (2 <=? h_ms h) by (destruct (N.ltb_spec 1 (h_ms h)), (N.leb_spec 2 (h_ms h)); try reflexivity; lia).
  destruct (2 <=? length (counts_of (h_stats h)))%nat; rewrite <- ?app_assoc; reflexivity.
Qed.
Lemma suite_line_still : forall l h, still (h_name h) -> still (suite_line l h).
Proof.
  intros l h H. rewrite suite_line_eq. pose proof (texts_still _ (counts_still (h_stats h))) as T.
  assert (M : still (match h_turns h with [] => [] | [_] => str " case" | _ => str " cases" end)) by (destruct (h_turns h) as [|a [|b r]]; stills).
  stills; first [apply volume_still|apply duration_still|apply units_still; stills].
Qed.
Lemma suite_ok : forall l h s L, still (h_name h) -> still_fit l -> inv s L ->
  index (suite_endup l h s) = index s /\ exists b, suite_shown l h (index s) b /\ inv (suite_endup l h s) (L ++ b).
Proof.
  intros l h s L H F V. unfold suite_endup, suite_shown. destruct ((9 <=? verbose l) && negb (narrowed l)).
  - destruct (bar_ok l true [] [] false s L still_nil still_nil F V) as (A & B & C & R). rewrite andb_false_r in R. cbn zeta in R. rewrite !app_nil_r in R. split; [exact A|].
    apply (emit_line _ _ _ _ (suite_line_still l h H) (pct_still l (index s))) in R. eexists. split; [|eapply ready_inv, R].
    eexists _, _, _, _, _. split; [apply pct_ok|]. split; [apply texts_joined|]. split; [apply then_ok, numbered_ok|]. split; [apply then_ok; eexists; split; [apply volume_ok|reflexivity]|]. split; [apply then_ok, duration_ok|].
    rewrite suite_line_eq. reflexivity.
  - split; [reflexivity|]. exists []. rewrite app_nil_r. auto.
Qed.
Lemma shows_ok : forall l hs s L, Forall still_show hs -> still_fit l -> inv s L ->
  exists a, ShowLines l (index s) hs a /\ inv (fold_left (one_show l) hs s) (L ++ a).
Proof.
  induction hs as [|h hs IH]; intros s L H F V; cbn [fold_left].
  - exists []. rewrite app_nil_r. split; [constructor|exact V].
  - inversion H as [|? ? (HN & HT) H2]; subst. unfold one_show at 2.
    destruct (turns_ok l h (h_turns h) s L HN HT F V) as (I1 & a & TA & W1). cbn zeta in *.
    destruct (suite_ok l h _ _ HN F W1) as (I2 & b & SB & W2). rewrite I1 in *.
    destruct (IH _ _ H2 F W2) as (c & SC & W3). rewrite I2 in SC. exists (a ++ b ++ c). split; [constructor; assumption|]. rewrite <- !app_assoc in W3. exact W3.
Qed.

(** the last line *)
Lemma others_concat : forall st,
  (if (failed st =? 0)%Z then [] else str ", " ++ dec (Z.to_N (failed st)) ++ str " failed") ++
  (if (warning st =? 0)%Z then [] else str ", " ++ dec (Z.to_N (warning st)) ++ str " warning") ++
  (if (todo st =? 0)%Z then [] else str ", " ++ dec (Z.to_N (todo st)) ++ str " todo") ++
  (if (filtered st =? 0)%Z then [] else str ", " ++ dec (Z.to_N (filtered st)) ++ str " filtered") ++
  (if (ignored st =? 0)%Z then [] else str ", " ++ dec (Z.to_N (ignored st)) ++ str " ignored") =
  concat (map (fun x => str ", " ++ dec (fst x) ++ str " " ++ snd x) (others st)).
Proof.
  intros st. unfold others. rewrite !map_app, !concat_app.
  assert (C : forall n w, (if (n =? 0)%Z then [] else str ", " ++ dec (Z.to_N n) ++ 32 :: w) = concat (map (fun x : N * bytes => str ", " ++ dec (fst x) ++ str " " ++ snd x) (counted n w))).
  { intros n w. unfold counted. destruct (n =? 0)%Z; [reflexivity|]. cbn [map concat fst snd]. rewrite app_nil_r. reflexivity. }
  rewrite <- !C. reflexivity.
Qed.
Definition figure (l : look) (st : stats) : bytes :=
  let y := texts ((Z.to_N (passed st), str "passed") :: others st) in match others st with [] => y | _ => str "(" ++ y ++ str ") " ++ dec (total l) end.
Lemma summary_eq : forall l st asserts rounds ms, summary l st asserts rounds ms =
  (if (failed st <=? 0)%Z then str "Success " else str "Failure ") ++ figure l st ++ str " " ++ plural (total l) (str "case") ++ str ", " ++
  (format_units asserts (str " assert") ++ (if 2 <=? rounds then str ", " ++ format_units rounds (str " round") else [])) ++ str ", " ++ format_duration l ms.
Proof.
  intros. unfold summary. cbn zeta. rewrite nonzero_others. f_equal.
  { destruct (Z.ltb_spec 0 (failed st)), (Z.leb_spec (failed st) 0); try reflexivity; lia. }
  replace (1 <? rounds) with (2 <=? rounds) by (destruct (N.ltb_spec 1 rounds), (N.leb_spec 2 rounds); try reflexivity; lia).
  assert (U : units (total l) (str " case") = str " " ++ plural (total l) (str "case")) by (rewrite units_ok; unfold plural; destruct (total l <=? 1); reflexivity).
  rewrite U. unfold figure. rewrite texts_tail, <- others_concat. clear U.
  destruct (others st) as [|o r]; cbn [length]; [change (0 <? N.of_nat 0) with false|replace (0 <? N.of_nat (S (length r))) with true by (symmetry; apply N.ltb_lt; lia)]; cbv iota;
    change (str " passed") with (str " " ++ str "passed"); rewrite <- !app_assoc; reflexivity.
Qed.
Lemma figure_still : forall l st, still (figure l st).
Proof.
  intros. unfold figure. assert (T : still (texts ((Z.to_N (passed st), str "passed") :: others st))) by (apply texts_still; constructor; [cbn [snd]; stills|apply others_still]).
  cbn zeta. destruct (others st); stills.
Qed.
Lemma summary_still : forall l st asserts rounds ms, still (summary l st asserts rounds ms).
Proof.
  intros. rewrite summary_eq. unfold plural. stills; first [apply figure_still|apply duration_still|apply units_still; stills].
Qed.
Lemma summary_ok : forall l st asserts rounds ms, summed_up l st asserts rounds ms (summary l st asserts rounds ms).
Proof.
  intros. rewrite summary_eq. exists (others st), (texts ((Z.to_N (passed st), str "passed") :: others st)), (figure l st). eexists. eexists.
  split; [reflexivity|]. split; [apply texts_joined|]. split.
  { unfold figure. cbn zeta. destruct (others st); [reflexivity|]. eexists. split; [apply dec_ok|reflexivity]. }
  split; [|split; [apply (duration_ok l)|reflexivity]]. eexists _, _. split; [apply numbered_ok|]. split; [apply then_ok, numbered_ok|reflexivity].
Qed.

Lemma console_ok : forall l hs st asserts rounds ms, Forall still_show hs -> still_fit l ->
  exists ls sum, screen (console l hs st asserts rounds ms) = ls ++ [sum] /\ ShowLines l 0 hs ls /\ summed_up l st asserts rounds ms sum.
Proof.
  intros l hs st asserts rounds ms H F.
  assert (V : inv con0 []) by (exists [], [], []; split; [reflexivity|]; split; [constructor|reflexivity]).
  destruct (shows_ok l hs con0 [] H F V) as (ls & SL & W). exists ls, (summary l st asserts rounds ms). split; [|split; [exact SL|apply summary_ok]].
  unfold console, runner_endup. destruct (bar_ok l false [] [] false _ _ still_nil still_nil F W) as (A & B & C & R). rewrite andb_false_r in R. cbn zeta in R. cbn [app] in R.
  apply (emit_line _ _ _ _ (summary_still l st asserts rounds ms) still_nil) in R. destruct R as (_ & r & Z & T). unfold screen. fold t0. rewrite T. reflexivity.
Qed.
