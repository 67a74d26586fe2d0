(** Proofs: the console of a run. *)
From Coq Require Import List NArith ZArith Bool Arith Lia.
From Verif Require Import Base RunnerModel RunnerSpec RunnerProofs JunitModel JunitSpec ListingModel ListingSpec ConsoleModel ConsoleSpec ConsoleProofs ConsoleProofs2.
Import ListNotations.
Local Open Scope N_scope.

Lemma turn_told : forall g o body n c v, lists o = false -> treated o body (n, c) v -> told g o body n c (turn_of g body c v) /\ class_of (turn_of g body c v) = v_class v.
Proof.
  intros g o body n c v L T. inversion T; subst; unfold told, turn_of, class_of; cbn;
    repeat match goal with H : _ = _ |- _ => rewrite H end; cbn; auto 20; try congruence.
Qed.
Lemma turns_told : forall g o body n, lists o = false -> forall cs b, Forall2 (treated o body) (map (pair n) cs) b -> forall rest,
  exists ts, turns_of g body cs (b ++ rest) = (ts, rest) /\ Forall2 (told g o body n) cs ts /\ map class_of ts = map v_class b.
Proof.
  intros g o body n L. induction cs as [|c cs IH]; intros b F rest; inversion F as [|? v ? b' T F']; subst.
  - exists []. cbn. destruct rest; auto.
  - destruct (IH b' F' rest) as (ts & E & Q & M). destruct (turn_told g o body n c v L T) as (A & B). cbn [app turns_of]. rewrite E. eexists. split; [reflexivity|]. split; [constructor; auto|cbn; congruence].
Qed.
Lemma of_kind_count : forall k ts b, k <> RunnerModel.Listed -> map class_of ts = map v_class b -> RunnerSpec.count k b = Z.of_nat (of_kind k ts).
Proof.
  intros k ts b NK. revert b. unfold of_kind, RunnerSpec.count. induction ts as [|t ts IH]; intros [|v b] E; try discriminate; [reflexivity|]. cbn [map] in E. injection E as E1 E2. specialize (IH b E2). cbn [filter]. rewrite E1.
  destruct (v_class v), k; try congruence; cbn [class_eqb length]; lia.
Qed.
Lemma of_kind_app : forall k a b, of_kind k (a ++ b) = (of_kind k a + of_kind k b)%nat.
Proof. intros. unfold of_kind. rewrite filter_app, app_length. reflexivity. Qed.
Lemma stat_tallies : forall st ts b, (forall k, k <> RunnerModel.Listed -> stat k st = RunnerSpec.count k b) -> map class_of ts = map v_class b -> tallies st ts.
Proof.
  intros st ts b S M. unfold tallies.
  repeat split; [rewrite <- (of_kind_count Passed ts b) by (discriminate || assumption); exact (S Passed ltac:(discriminate))
    |rewrite <- (of_kind_count Failed ts b) by (discriminate || assumption); exact (S Failed ltac:(discriminate))
    |rewrite <- (of_kind_count Warning ts b) by (discriminate || assumption); exact (S Warning ltac:(discriminate))
    |rewrite <- (of_kind_count Todo ts b) by (discriminate || assumption); exact (S Todo ltac:(discriminate))
    |rewrite <- (of_kind_count Filtered ts b) by (discriminate || assumption); exact (S Filtered ltac:(discriminate))
    |rewrite <- (of_kind_count Ignored ts b) by (discriminate || assumption); exact (S Ignored ltac:(discriminate))].
Qed.
Lemma shows_told : forall g o body, lists o = false -> forall ss reps bs,
  Forall2 (fun s b => forall k, k <> RunnerModel.Listed -> stat k s = RunnerSpec.count k b) reps bs ->
  Forall2 (fun it b => Forall2 (treated o body) (map (pair (fst it)) (snd (snd it))) b) ss bs ->
  Forall2 (show_told g o body) ss (shows_of g body (map snd ss) reps (concat bs)) /\
  map class_of (flat_map h_turns (shows_of g body (map snd ss) reps (concat bs))) = map v_class (concat bs).
Proof.
  intros g o body L. induction ss as [|(n & nm & cs) ss IH]; intros reps bs S T; inversion T as [|? b ? bs' T1 T2]; subst; inversion S as [|st ? reps' ? S1 S2]; subst; cbn [map concat shows_of flat_map snd fst].
  - split; [constructor|reflexivity].
  - cbn [fst snd] in T1. destruct (turns_told g o body n L cs b T1 (concat bs')) as (ts & E & F & M). destruct (IH reps' bs' S2 T2) as (A & B). rewrite E. destruct (n_suite g nm st) as [[a f] m] eqn:?. split.
    + constructor; [|exact A]. split; [reflexivity|]. split; [exact F|]. cbn [h_stats h_turns]. eapply stat_tallies; eauto.
    + cbn [flat_map h_turns]. rewrite !map_app, M, B. reflexivity.
Qed.
Lemma told_still : forall g o body n c t, still_given g -> told g o body n c t -> still_turn t.
Proof. intros g o body n c t G (A & B & C & D & _). destruct (G (c_id c)) as (X & Y & Z). destruct (Z n) as (U & V). unfold still_turn. rewrite A, B, C, D. auto. Qed.
Lemma outings_orders : forall o order, map snd (outings o order) = flat_map order (seq 0 (run_rounds o)).
Proof. intros. unfold outings. induction (seq 0 (run_rounds o)) as [|n l IH]; cbn; [reflexivity|]. rewrite map_app, map_map, IH. f_equal. cbn [snd]. rewrite map_id. reflexivity. Qed.
Lemma outings_map : forall (P : nat * list case_ -> list visit -> Prop) order l bs,
  Forall2 P (flat_map (fun n => map (pair n) (map snd (order n))) l) bs ->
  Forall2 (fun it b => P (fst it, snd (snd it)) b) (flat_map (fun r : nat => map (pair r) (order r)) l : list (nat * ((bytes * bool) * list case_))) bs.
Proof.
  intros P order l bs F. 
  assert (E : flat_map (fun n => map (pair n) (map snd (order n))) l = map (fun it => (fst it, snd (snd it))) (flat_map (fun r : nat => map (pair r) (order r)) l)).
  { clear F. induction l as [|n l IH]; cbn; [reflexivity|]. rewrite map_app. f_equal; [rewrite !map_map; reflexivity|]. exact IH. }
  rewrite E in F. clear E. revert bs F. induction (flat_map (fun r : nat => map (pair r) (order r)) l) as [|it r IH]; intros bs F; inversion F; subst; constructor; auto.
Qed.
Lemma run_ok : forall g l o body order asserts ms, lists o = false -> still_given g -> Forall (fun x => still (fst (fst (snd x)))) (outings o order) -> still_fit l ->
  exists hs ls sum, screen (console_run g l o body order asserts ms) = ls ++ [sum] /\
    Forall2 (show_told g o body) (outings o order) hs /\
    ShowLines l 0 hs ls /\
    exists st, tallies st (flat_map h_turns hs) /\ st = r_stats (fst (run o body (fun n => map snd (order n)))) /\ summed_up l st asserts (N.of_nat (run_rounds o)) ms sum.
Proof.
  intros g l o body order asserts ms L G SN F. unfold console_run. cbn zeta. set (od := fun n => map snd (order n)).
  destruct (suite_reports o body od) as (bs & CB & R & T). rewrite <- CB, <- outings_orders.
  assert (T2 := outings_map (fun it b => Forall2 (treated o body) (map (pair (fst it)) (snd it)) b) order _ _ T). fold (outings o order) in T2. cbn [fst snd] in T2.
  destruct (shows_told g o body L _ _ _ R T2) as (A & B).
  set (hs := shows_of g body (map snd (outings o order)) (rev (snd (run o body od))) (concat bs)) in *.
  assert (ST : Forall still_show hs).
  { clearbody hs. clear - A SN G. induction A as [|x h xs hs (E & Q & _) A IH]; constructor; inversion SN; subst; auto. split; [rewrite E; assumption|].
    clear - Q G. induction Q; constructor; eauto using told_still. }
  destruct (console_ok l hs (r_stats (fst (run o body od))) asserts (N.of_nat (run_rounds o)) ms ST F) as (ls & sum & E & SL & SU).
  exists hs, ls, sum. split; [exact E|]. split; [exact A|]. split; [exact SL|]. eexists. split; [|split; [reflexivity|exact SU]].
  apply (stat_tallies _ _ (concat bs)); [|exact B]. intros k NK. rewrite CB, count_rev. apply counts, NK.
Qed.

(** with little verbosity: a line for each case of the kinds asked for *)
Definition verbal (v : N) (ts : list turn) : nat :=
  ((if (1 <=? v)%N then of_kind Failed ts else 0) + (if (2 <=? v)%N then of_kind Warning ts else 0) + (if (v =? 3)%N then of_kind Passed ts else 0))%nat.
Lemma turn_lines_length : forall l h i ts ls, verbose l <= 3 -> TurnLines l h i ts ls -> length ls = verbal (verbose l) ts.
Proof.
  intros l h i ts ls V T. induction T as [i|i t r a b c A B C IH]; [unfold verbal, of_kind; cbn; destruct (1 <=? verbose l), (2 <=? verbose l), (verbose l =? 3); reflexivity|].
  rewrite !app_length, IH.
  assert (LA : length a = 0%nat). { unfold output_lines in A. replace (verbose l <? 4) with true in A by (symmetry; apply N.ltb_lt; lia). cbn [orb] in A. destruct (class_of t); subst; reflexivity. }
  rewrite LA. change (t :: r) with ([t] ++ r). unfold verbal. rewrite !of_kind_app.
  assert (LB : length b = if has_line (verbose l) (class_of t) then 1%nat else 0%nat).
  { unfold verdict_lines in B. destruct (has_line (verbose l) (class_of t)) eqn:HL; [|subst; reflexivity]. destruct B as (p & f & x & _ & _ & _ & ->). cbn [length]. f_equal.
    destruct (t_details t); [|reflexivity]. replace (4 <=? verbose l) with false by (symmetry; apply N.leb_gt; lia). replace (5 <=? verbose l) with false by (symmetry; apply N.leb_gt; lia). destruct (class_of t); reflexivity. }
  rewrite LB. unfold has_line, of_kind. cbn [filter]. 
  replace (5 <=? verbose l) with false by (symmetry; apply N.leb_gt; lia). rewrite orb_false_r. replace (negb (verbose l =? 0)) with (1 <=? verbose l) by (destruct (N.eqb_spec (verbose l) 0), (N.leb_spec 1 (verbose l)); try reflexivity; lia).
  destruct (class_of t), (1 <=? verbose l), (2 <=? verbose l), (verbose l =? 3); cbn [length]; lia.
Qed.
Lemma show_lines_length : forall l i hs ls, verbose l <= 3 -> ShowLines l i hs ls -> length ls = verbal (verbose l) (flat_map h_turns hs).
Proof.
  intros l i hs ls V S. induction S as [i|i h r a b c A B C IH]; [unfold verbal, of_kind; cbn; destruct (1 <=? verbose l), (2 <=? verbose l), (verbose l =? 3); reflexivity|].
  cbn [flat_map]. rewrite !app_length, IH, (turn_lines_length _ _ _ _ _ V A). unfold suite_shown in B. replace (9 <=? verbose l) with false in B by (symmetry; apply N.leb_gt; lia). cbn [andb] in B. subst. cbn [length].
  unfold verbal. rewrite !of_kind_app. destruct (1 <=? verbose l), (2 <=? verbose l), (verbose l =? 3); lia.
Qed.
Lemma quiet : forall g l o body order asserts ms, lists o = false -> still_given g -> Forall (fun x => still (fst (fst (snd x)))) (outings o order) -> still_fit l -> verbose l <= 3 ->
  let st := r_stats (fst (run o body (fun n => map snd (order n)))) in
  Z.of_nat (length (screen (console_run g l o body order asserts ms))) =
  (1 + (if (1 <=? verbose l)%N then failed st else 0) + (if (2 <=? verbose l)%N then warning st else 0) + (if (3 <=? verbose l)%N then passed st else 0))%Z.
Proof.
  intros g l o body order asserts ms L G SN F V. cbn zeta. destruct (run_ok g l o body order asserts ms L G SN F) as (hs & ls & sum & E & _ & SL & st & (TP & TF & TW & _) & <- & _).
  rewrite E, app_length, (show_lines_length _ _ _ _ V SL), TP, TF, TW. unfold verbal. cbn [length].
  replace (3 <=? verbose l) with (verbose l =? 3) by (destruct (N.eqb_spec (verbose l) 3), (N.leb_spec 3 (verbose l)); try reflexivity; lia).
  destruct (1 <=? verbose l), (2 <=? verbose l), (verbose l =? 3); lia.
Qed.
Lemma last_line : forall g l o body order asserts ms, lists o = false -> still_given g -> Forall (fun x => still (fst (fst (snd x)))) (outings o order) -> still_fit l ->
  exists ls x, screen (console_run g l o body order asserts ms) = ls ++ [x] /\
    (RunnerSpec.count Failed (rev (r_log (fst (run o body (fun n => map snd (order n)))))) = 0%Z -> exists y, x = str "Success " ++ y) /\
    (RunnerSpec.count Failed (rev (r_log (fst (run o body (fun n => map snd (order n)))))) <> 0%Z -> exists y, x = str "Failure " ++ y).
Proof.
  intros g l o body order asserts ms L G SN F. destruct (run_ok g l o body order asserts ms L G SN F) as (hs & ls & sum & E & _ & _ & st & _ & ES & SU).
  exists ls, sum. split; [exact E|]. rewrite count_rev. pose proof (counts o body (fun n => map snd (order n)) Failed ltac:(discriminate)) as K. rewrite <- ES in K. cbn [stat] in K. rewrite <- K.
  destruct SU as (others & y & a & c & d & _ & _ & _ & _ & _ & ->). assert (P : (0 <= failed st)%Z) by (rewrite K; apply Zle_0_nat).
  split; intros Z; destruct (Z.leb_spec (failed st) 0); try lia; eexists; reflexivity.
Qed.
