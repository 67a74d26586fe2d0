(** Lemmas on the reports of memory failures, exceptions and functions not found. *)
From Coq Require Import List NArith ZArith Bool Arith Lia.
From Verif Require Import Base StrModel StrProofs TextModel TextSpec TextProofs LineModel LineSpec JunitModel JunitSpec JunitProofs DumpModel DumpSpec DumpProofs DumpProofs2 MessageModel MessageSpec MessageProofs MessageProofs2
  MemrepModel MemrepSpec.
Import ListNotations.
Local Open Scope N_scope.

(** numbers *)
Lemma hexed_no27 : forall d n, hexed d n -> ~ In 27 d.
Proof.
  assert (Z : forall c d, hex_lower c = Some d -> c <> 27) by (intros c d H ->; discriminate H).
  induction 1 as [c d H|t v c d H IH N0 X]; intros I; [destruct I as [I|[]]; exact (Z _ _ H I)|]. apply in_app_iff in I. destruct I as [I|[I|[]]]; [exact (IH I)|exact (Z _ _ X I)].
Qed.
Lemma decimal_no27 : forall d n, decimal d n -> ~ In 27 d.
Proof. intros d n (F & _) I. rewrite Forall_forall in F. specialize (F _ I). cbv beta in F. lia. Qed.
Lemma Hex_no27 : forall d n, Hex d n -> ~ In 27 d.
Proof.
  assert (Z : forall c d, hex_value c = Some d -> c <> 27) by (intros c d H ->; discriminate H).
  induction 1 as [|t v c d H IH X]; intros I; [exact I|]. apply in_app_iff in I. destruct I as [I|[I|[]]]; [exact (IH I)|exact (Z _ _ X I)].
Qed.
Lemma no27_app : forall a b : bytes, ~ In 27 a -> ~ In 27 b -> ~ In 27 (a ++ b).
Proof. intros a b A B I. apply in_app_iff in I. tauto. Qed.
Lemma address_ok : forall p, an_address p -> address p (pointer_text p) /\ percent_p p = pointer_text p /\ ~ In 27 (pointer_text p).
Proof.
  intros p (A & B). unfold pointer_text, percent_p. destruct (N.eqb_spec p 0) as [|_]; [lia|].
  destruct (lower_digits_ok 16 p []) as (d & E & X); [exact B|lia|]. rewrite E, app_nil_r. split; [exists d; auto|]. split; [reflexivity|].
  apply no27_app; [cbn; intuition discriminate|exact (hexed_no27 _ _ X)].
Qed.
Lemma s32_small : forall z, int_range z -> s32 z = z.
Proof. intros z H. unfold int_range in H. unfold s32. rewrite Z.mod_small; lia. Qed.
Lemma s64_small : forall z, int_range z -> s64 z = z.
Proof. intros z H. unfold int_range in H. unfold s64. rewrite Z.mod_small; lia. Qed.
Lemma signed_ok : forall z, int_range z -> signed z (percent_d z).
Proof. intros z H. exists (dec (Z.abs_N z)). unfold percent_d. rewrite s32_small by exact H. split; [apply dec_ok|reflexivity]. Qed.
Lemma dec_no27 : forall n, ~ In 27 (dec n).
Proof. intros n. exact (decimal_no27 _ _ (dec_ok n)). Qed.
Lemma percent_d_no27 : forall z, ~ In 27 (percent_d z).
Proof. intros z. unfold percent_d. apply no27_app; [destruct (_ <? _)%Z; cbn; intuition discriminate|apply dec_no27]. Qed.

(** pieces of lines *)
Lemma lw : forall w, ~ In 27 w -> leaves [] [w] (letters [] w).
Proof. intros w H. apply leaves_word, no_esc, H. Qed.
Ltac lit := cbn; intuition discriminate.
Lemma lgray : forall w, ~ In 27 w -> leaves [] (gray w) (letters darkgray w).
Proof. intros w H. apply (leaves_gray [] w); [left; reflexivity|apply no_esc, H]. Qed.
Lemma lbrush : forall s st w, restyle ([27; 123] ++ s ++ [125]) [] = st -> ~ In 27 w -> leaves [] (brush s [w]) (letters st w).
Proof. intros s st w R H. replace (letters st w) with (ink st [w]); [apply leaves_brush, R|]. cbn. rewrite (no_esc w H). apply app_nil_r. Qed.
Lemma lbrush2 : forall s st v w, restyle ([27; 123] ++ s ++ [125]) [] = st -> ~ In 27 v -> ~ In 27 w -> leaves [] (brush s [v; w]) (letters st (v ++ w)).
Proof. intros s st v w R V H. replace (letters st (v ++ w)) with (ink st [v; w]); [apply leaves_brush, R|]. cbn. rewrite (no_esc w H), (no_esc v V), app_nil_r. symmetry. apply map_app. Qed.
Lemma lprintf : forall s st w, restyle ([27; 123] ++ s ++ [125]) [] = st -> ~ In 27 w -> leaves [] (printf_words s w) (letters st w).
Proof. intros s st w R H. exact (lbrush s st w R H). Qed.
Lemma lnl : forall l o, leaves [] l o -> leaves [] (printl l) (o ++ letters [] nl).
Proof. intros l o H. apply leaves_app; [exact H|]. apply lw. lit. Qed.
Lemma lprints : forall w, ~ In 27 w -> leaves [] (prints [] w) (letters [] w).
Proof. intros w H. apply lw, H. Qed.
Lemma lprintsred : forall w, ~ In 27 w -> leaves [] (prints (str "bold,red") w) (letters red w).
Proof. intros w H. apply (lprintf (str "bold,red")); [reflexivity|exact H]. Qed.
Lemma lexplain : forall l, closed l -> leaves [] l (ink [] l).
Proof. intros l C. split; [reflexivity|exact C]. Qed.

(** backtraces *)
Lemma same_exact : forall a b, same_text false a b <-> a = b.
Proof.
  unfold same_text. induction a as [|c a IH]; intros [|d b]; split; intros H; try discriminate; try (inversion H; fail); try constructor.
  - inversion H as [|? ? ? ? [->|(D & _)] F]; subst; [|discriminate]. f_equal. apply IH, F.
  - inversion H; subst. left. reflexivity.
  - inversion H; subst. apply IH. reflexivity.
Qed.
Lemma own_ok : forall f, startswith false f (str "h2::") || contains false f (str ": h2::") = true <-> own f.
Proof.
  intros f. rewrite orb_true_iff, startswith_begins, contains_occurs. unfold own, begins_with, occurs. split.
  - intros [(q & r & E & S1)|(p & q & r & E & S1)]; apply same_exact in S1; subst q; [left; exists r; exact E|right; exists p, r; exact E].
  - intros [(r & E)|(a & r & E)]; [left; exists (str "h2::"), r; split; [exact E|apply same_exact; reflexivity]|right; exists a, (str ": h2::"), r; split; [exact E|apply same_exact; reflexivity]].
Qed.
Lemma frame_ok : forall f, ~ In 27 f -> exists o, leaves [] (stack_line f) o /\ shows_frame f o.
Proof.
  intros f H. unfold stack_line. pose proof (own_ok f) as O. destruct (_ || _).
  - exists (letters darkgray f). split; [apply lbrush; [reflexivity|exact H]|]. split; [reflexivity|]. intros K. exfalso. apply K, O. reflexivity.
  - exists (letters [] f). split; [apply lw, H|]. split; [intros K; apply O in K; discriminate|reflexivity].
Qed.
Lemma spaces_no27 : forall n, ~ In 27 (repeat 32 n).
Proof. intros n I. apply repeat_spec in I. discriminate. Qed.
Lemma trace_from : forall pad fs i, (0 < pad)%nat -> calm_frames fs -> exists o, leaves [] (concat (map printl (sequence pad i (map stack_line fs)))) o /\ shows_trace pad (N.of_nat i) fs o.
Proof.
  intros pad fs. induction fs as [|f fs IH]; intros i P C; cbn [map sequence concat].
  - exists []. split; [apply leaves_nil|constructor].
  - inversion C as [|? ? Cf Cs]; subst. destruct (IH (S i) P Cs) as (o & L & T). destruct (frame_ok f Cf) as (x & Lx & Sx).
    exists (letters [] (repeat 32 pad) ++ letters darkgray (dec (N.of_nat i) ++ str ". ") ++ x ++ letters [] nl ++ o). split.
    + replace (letters [] (repeat 32 pad) ++ letters darkgray (dec (N.of_nat i) ++ str ". ") ++ x ++ letters [] nl ++ o)
        with (((letters [] (repeat 32 pad) ++ (letters darkgray (dec (N.of_nat i) ++ str ". ") ++ x)) ++ letters [] nl) ++ o) by (rewrite <- !app_assoc; reflexivity).
      apply leaves_app; [|exact L]. apply lnl. unfold indent. destruct (Nat.eqb_spec pad 0) as [Z|_]; [lia|].
      change (repeat 32 pad :: delta (dec (N.of_nat i) ++ str ". ") dark_gray ++ stack_line f) with ([repeat 32 pad] ++ (delta (dec (N.of_nat i) ++ str ". ") dark_gray ++ stack_line f)).
      apply leaves_app; [apply lw, spaces_no27|]. apply leaves_app; [|exact Lx]. apply (leaves_delta [] _); [left; reflexivity|]. apply no_esc, no27_app; [apply dec_no27|lit].
    + constructor; [apply dec_ok|exact Sx|]. rewrite Nnat.Nat2N.inj_succ in T. rewrite N.add_1_r. exact T.
Qed.
Lemma trace_ok : forall pad t, (0 < pad)%nat -> calm_frames (stacks t) -> exists o, leaves [] (print_trace pad t) o /\ shows_trace pad 0 (stacks t) o.
Proof. intros pad t P C. exact (trace_from pad (stacks t) 0 P C). Qed.

(** the sizes of a leak *)
Lemma size_ok : forall s k, exists o, leaves [] ([dec s] ++ (if 1 <? k then gray (str "x") ++ [dec k] else [])) o /\ shows_size (s, k) o.
Proof.
  intros s k. destruct (N.ltb_spec 1 k) as [L|L].
  - exists (letters [] (dec s) ++ letters darkgray (str "x") ++ letters [] (dec k)). split.
    + apply leaves_app; [apply lw, dec_no27|]. apply leaves_app; [apply lgray; lit|apply lw, dec_no27].
    + exists (dec s). split; [apply dec_ok|]. cbn [snd]. split; [intros; lia|]. intros _. exists (dec k). split; [apply dec_ok|reflexivity].
  - exists (letters [] (dec s)). rewrite app_nil_r. split; [apply lw, dec_no27|]. exists (dec s). split; [apply dec_ok|]. cbn [snd]. split; [reflexivity|intros; lia].
Qed.
Definition sep (i : nat) : list (styles * byte) := if (i =? 0)%nat then [] else letters darkgray (str ", ").
Lemma sep_ok : forall i, leaves [] (gray (if (i =? 0)%nat then [] else str ", ")) (sep i).
Proof. intros i. unfold sep. destruct (i =? 0)%nat; [apply leaves_nil|apply lgray; lit]. Qed.
Fixpoint seps (i : nat) (os : list (list (styles * byte))) : list (styles * byte) := match os with [] => [] | o :: r => sep i ++ o ++ seps (S i) r end.
Lemma seps_joined : forall os, seps 0 os = joined os.
Proof.
  assert (G : forall os i, os <> [] -> seps (S i) os = letters darkgray (str ", ") ++ joined os).
  { induction os as [|o os IH]; intros i H; [congruence|]. cbn [seps]. change (sep (S i)) with (letters darkgray (str ", ")). destruct os as [|p os]; [cbn [seps joined]; rewrite app_nil_r; reflexivity|].
    rewrite IH by discriminate. reflexivity. }
  intros [|o [|p os]]; [reflexivity|cbn; apply app_nil_r|]. cbn [seps]. change (sep 0) with (@nil (styles * byte)). cbn [app].
  change (sep 1 ++ p ++ seps 2 os) with (seps 1 (p :: os)). rewrite G by discriminate. reflexivity.
Qed.
(** all of them *)
Lemma sizes_all : forall b n l i, b = false \/ (i + length l <= 3)%nat -> exists os, Forall2 shows_size l os /\ leaves [] (fst (leak_sizes b n i l)) (seps i os) /\ snd (leak_sizes b n i l) = pieces l.
Proof.
  intros b n. induction l as [|(s, k) l IH]; intros i H.
  - exists []. split; [constructor|]. split; [apply leaves_nil|reflexivity].
  - cbn [leak_sizes]. assert (Z : b && (3 <? S i)%nat = false). { destruct H as [->|H]; [reflexivity|]. cbn [length] in H. destruct (Nat.ltb_spec 3 (S i)); [lia|apply andb_false_r]. }
    rewrite Z. destruct (IH (S i)) as (os & F & L & C). { destruct H as [H|H]; [left; exact H|right; cbn [length] in H; lia]. }
    destruct (leak_sizes b n (S i) l) as (w, c) eqn:E. cbn [fst snd] in *. destruct (size_ok s k) as (o & Lo & So). exists (o :: os). split; [constructor; assumption|]. split.
    + cbn [seps]. apply leaves_app; [apply sep_ok|]. rewrite app_assoc. apply leaves_app; [exact Lo|exact L].
    + cbn [pieces fold_right snd]. rewrite C. reflexivity.
Qed.
(** the first three *)
Lemma sizes_brief : forall n l i, (i <= 3)%nat -> (3 < i + length l)%nat -> exists os, Forall2 shows_size (firstn (3 - i) l) os /\
  leaves [] (fst (leak_sizes true n i l)) (seps i os ++ letters darkgray (str ", ..." ++ dec (N.of_nat (n - 3)))) /\ snd (leak_sizes true n i l) = pieces (firstn (3 - i) l).
Proof.
  intros n. induction l as [|(s, k) l IH]; intros i H K; [cbn [length] in K; lia|]. cbn [leak_sizes andb]. destruct (Nat.ltb_spec 3 (S i)) as [G|G].
  - assert (i = 3%nat) by lia. subst i. exists []. split; [constructor|]. split; [|reflexivity]. cbn [fst seps app].
    change (letters darkgray (str ", ..." ++ dec (N.of_nat (n - 3)))) with (letters darkgray (str ", " ++ (str "..." ++ dec (N.of_nat (n - 3))))). rewrite letters_app.
    apply leaves_app; [apply (sep_ok 3)|]. apply lbrush2; [reflexivity|lit|apply dec_no27].
  - destruct (IH (S i)) as (os & F & L & C); [lia|cbn [length] in K; lia|]. destruct (leak_sizes true n (S i) l) as (w, c) eqn:E. cbn [fst snd] in *. destruct (size_ok s k) as (o & Lo & So).
    replace (3 - i)%nat with (S (3 - S i)) by lia. cbn [firstn]. exists (o :: os). split; [constructor; assumption|]. split.
    + cbn [seps]. rewrite <- !app_assoc. apply leaves_app; [apply sep_ok|]. rewrite (app_assoc [dec s]). apply leaves_app; [exact Lo|exact L].
    + cbn [pieces fold_right snd]. rewrite C. reflexivity.
Qed.
Lemma pieces_three : forall l, Forall (fun p => 1 <= snd p) l -> (3 <= length l)%nat -> 1 < pieces (firstn 3 l) /\ 1 < pieces l.
Proof.
  intros [|a [|b [|c l]]] F H; cbn [length] in H; try lia. inversion F as [|? ? A F1]; subst. inversion F1 as [|? ? B F2]; subst. cbn [firstn pieces fold_right]. split; lia.
Qed.
Lemma sizes_ok : forall b l, Forall (fun p => 1 <= snd p) l -> exists o, leaves [] (fst (leak_sizes b (length l) 0 l)) o /\ shows_sizes b l o /\ (1 < snd (leak_sizes b (length l) 0 l) <-> 1 < pieces l).
Proof.
  intros b l P. destruct (bool_dec b false) as [B|B]; [|apply not_false_is_true in B; destruct (Nat.le_gt_cases (length l) 3) as [S1|S1]].
  - destruct (sizes_all b (length l) l 0) as (os & F & L & C); [left; exact B|]. exists (seps 0 os). split; [exact L|]. split; [|rewrite C; reflexivity]. split; [|congruence].
    intros _. exists os. split; [exact F|apply seps_joined].
  - destruct (sizes_all b (length l) l 0) as (os & F & L & C); [right; exact S1|]. exists (seps 0 os). split; [exact L|]. split; [|rewrite C; reflexivity]. split; [|intros; lia].
    intros _. exists os. split; [exact F|apply seps_joined].
  - subst b. destruct (sizes_brief (length l) l 0) as (os & F & L & C); [lia|exact S1|]. change (3 - 0)%nat with 3%nat in *. eexists. split; [exact L|]. split.
    + split; [intros [H|H]; [discriminate|lia]|]. intros _ _. exists os, (dec (N.of_nat (length l - 3))). split; [exact F|]. split; [|rewrite seps_joined; reflexivity].
      replace (N.of_nat (length l) - 3) with (N.of_nat (length l - 3)) by lia. apply dec_ok.
    + rewrite C. pose proof (pieces_three l P). intuition lia.
Qed.
