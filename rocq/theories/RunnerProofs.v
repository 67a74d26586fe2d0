From Coq Require Import List ZArith NArith Bool Lia Arith.
From Verif Require Import RunnerModel RunnerSpec.
Import ListNotations.
Local Open Scope Z_scope.

Lemma stat_bump : forall k j s, k <> Listed -> stat k (bump j s) = stat k s + (if class_eqb j k then 1 else 0).
Proof. intros [] [] s H; cbn; try congruence; lia. Qed.
Lemma count_cons : forall k v l, count k (v :: l) = (if class_eqb (v_class v) k then 1 else 0) + count k l.
Proof. intros. unfold count. cbn [filter]. destruct (class_eqb (v_class v) k); cbn [length]; lia. Qed.
Lemma count_app : forall k a b, count k (a ++ b) = count k a + count k b.
Proof. intros. unfold count. rewrite filter_app, app_length. lia. Qed.
Lemma count_nil : forall k, count k [] = 0. Proof. reflexivity. Qed.
Lemma count_rev : forall k l, count k (rev l) = count k l.
Proof. induction l as [|v l IH]; cbn [rev]; auto. rewrite count_app, count_cons, IH, count_cons, count_nil. lia. Qed.

(** one case: what is added *)
Record step_ok (o : opts) (body : oracle) (n : nat) (c : case_) (x y : rstate * stats) (v : visit) : Prop := mkstep {
  so_log : r_log (fst y) = v :: r_log (fst x);
  so_treated : treated o body (n, c) v;
  so_stat : forall k, k <> Listed -> stat k (r_stats (fst y)) = stat k (r_stats (fst x)) + count k [v];
  so_sstat : forall k, k <> Listed -> stat k (snd y) = stat k (snd x) + count k [v];
  so_ign : (r_ignored (fst x) <> [] -> 0 < break_after_fails o \/ only_last_failed o = true) -> r_ignored (fst y) <> [] -> 0 < break_after_fails o \/ only_last_failed o = true }.

Lemma visit_case_ok : forall o body n x c, (r_ignored (fst x) <> [] -> 0 < break_after_fails o \/ only_last_failed o = true) ->
  exists v, step_ok o body n c x (visit_case o body n x c) v.
Proof.
  intros o body n [r ss] c HI. cbn [fst] in HI. unfold visit_case.
  set (cond := (0 <? break_after_fails o) && (break_after_fails o <=? failed (r_stats r)) || only_last_failed o && negb (c_last_failed c)).
  assert (Hc : cond = true -> 0 < break_after_fails o \/ only_last_failed o = true).
  { unfold cond. intro H. apply orb_true_iff in H. destruct H as [H|H]; apply andb_true_iff in H; destruct H as [H _]; [left; lia|right; auto]. }
  set (ign := if cond then c_id c :: r_ignored r else r_ignored r).
  assert (Hg : ign <> [] -> 0 < break_after_fails o \/ only_last_failed o = true) by (unfold ign; destruct cond; auto).
  cbv zeta. destruct (existsb (N.eqb (c_id c)) ign) eqn:Ig.
  - replace (negb (lists o) && negb (c_todo c) && negb (c_filtered c) && negb true) with false by (cbn; rewrite !andb_false_r; auto).
    exists (mkvisit n (c_id c) false Ignored). constructor; cbn [fst snd r_log r_stats r_ignored]; auto.
    + apply t_ignored. apply Hg. intro E. rewrite E in Ig. discriminate.
    + intros k Hk. rewrite stat_bump, count_cons by auto. cbn [v_class]. rewrite count_nil. lia.
    + intros k Hk. rewrite stat_bump, count_cons by auto. cbn [v_class]. rewrite count_nil. lia.
  - destruct (c_filtered c) eqn:Fi.
    + replace (negb (lists o) && negb (c_todo c) && negb true && negb false) with false by (cbn; rewrite !andb_false_r; auto).
      exists (mkvisit n (c_id c) false Filtered). constructor; cbn [fst snd r_log r_stats r_ignored]; auto.
      * apply t_filtered. auto.
      * intros k Hk. rewrite stat_bump, count_cons by auto. cbn [v_class]. rewrite count_nil. lia.
      * intros k Hk. rewrite stat_bump, count_cons by auto. cbn [v_class]. rewrite count_nil. lia.
    + destruct (c_todo c) eqn:To.
      * replace (negb (lists o) && negb true && negb false && negb false) with false by (cbn; rewrite !andb_false_r; auto).
        exists (mkvisit n (c_id c) false Todo). constructor; cbn [fst snd r_log r_stats r_ignored]; auto.
        -- apply t_todo; auto.
        -- intros k Hk. rewrite stat_bump, count_cons by auto. cbn [v_class]. rewrite count_nil. lia.
        -- intros k Hk. rewrite stat_bump, count_cons by auto. cbn [v_class]. rewrite count_nil. lia.
      * destruct (lists o) eqn:Li; cbn [negb andb].
        -- exists (mkvisit n (c_id c) false Listed). constructor; cbn [fst snd r_log r_stats r_ignored]; auto.
           ++ apply t_listed; auto.
           ++ intros k Hk. rewrite count_cons. cbn [v_class]. rewrite count_nil. destruct k; cbn; try lia; congruence.
           ++ intros k Hk. rewrite count_cons. cbn [v_class]. rewrite count_nil. destruct k; cbn; try lia; congruence.
        -- destruct (body n (c_id c)) as [f w] eqn:Bo.
           exists (mkvisit n (c_id c) true (if f then Failed else if w then Warning else Passed)). constructor; cbn [fst snd r_log r_stats r_ignored]; auto.
           ++ destruct f; [apply t_failed with (w := w)|destruct w; [apply t_warning|apply t_passed]]; auto.
           ++ intros k Hk. rewrite stat_bump, count_cons by auto. cbn [v_class]. rewrite count_nil. lia.
           ++ intros k Hk. rewrite stat_bump, count_cons by auto. cbn [v_class]. rewrite count_nil. lia.
Qed.

Definition reason (o : opts) (r : rstate) : Prop := r_ignored r <> [] -> 0 < break_after_fails o \/ only_last_failed o = true.

Record block_ok (o : opts) (body : oracle) (n : nat) (cs : list case_) (x y : rstate * stats) (b : list visit) : Prop := mkblock {
  bo_log : r_log (fst y) = rev b ++ r_log (fst x);
  bo_treated : Forall2 (treated o body) (map (pair n) cs) b;
  bo_stat : forall k, k <> Listed -> stat k (r_stats (fst y)) = stat k (r_stats (fst x)) + count k b;
  bo_sstat : forall k, k <> Listed -> stat k (snd y) = stat k (snd x) + count k b;
  bo_reason : reason o (fst y) }.
Lemma cases_ok : forall o body n cs x, reason o (fst x) -> exists b, block_ok o body n cs x (fold_left (visit_case o body n) cs x) b.
Proof.
  induction cs as [|c cs IH]; intros x HI; cbn [fold_left].
  - exists []. constructor; auto; try constructor; intros; rewrite count_nil; lia.
  - destruct (visit_case_ok o body n x c HI) as (v & [A B C D E]). destruct (IH (visit_case o body n x c) (E HI)) as (b & [F G H I J]).
    exists (v :: b). constructor; auto.
    + rewrite F, A. cbn [rev]. rewrite <- app_assoc. auto.
    + cbn [map]. constructor; auto.
    + intros k Hk. rewrite H, C by auto. rewrite (count_cons k v b), (count_cons k v []), count_nil. lia.
    + intros k Hk. rewrite I, D by auto. rewrite (count_cons k v b), (count_cons k v []), count_nil. lia.
Qed.

Record suites_ok (o : opts) (body : oracle) (items : list (nat * list case_)) (x y : rstate * list stats) (bs : list (list visit)) : Prop := mksuites {
  su_log : r_log (fst y) = rev (concat bs) ++ r_log (fst x);
  su_treated : Forall2 (fun it b => Forall2 (treated o body) (map (pair (fst it)) (snd it)) b) items bs;
  su_stat : forall k, k <> Listed -> stat k (r_stats (fst y)) = stat k (r_stats (fst x)) + count k (concat bs);
  su_rep : exists reps, snd y = rev reps ++ snd x /\ Forall2 (fun s b => forall k, k <> Listed -> stat k s = count k b) reps bs;
  su_reason : reason o (fst y) }.
Lemma suites_fold_ok : forall o body n ss x, reason o (fst x) -> exists bs, suites_ok o body (map (pair n) ss) x (fold_left (visit_suite o body n) ss x) bs.
Proof.
  induction ss as [|cs ss IH]; intros x HI; cbn [fold_left].
  - exists []. constructor; cbn [map concat rev app]; try (constructor; fail); auto; [intros; rewrite count_nil; lia|exists []; split; auto].
  - destruct x as [r reps0]. destruct (cases_ok o body n cs (r, zero) HI) as (b & [A B C D E]). cbn [visit_suite].
    destruct (fold_left (visit_case o body n) cs (r, zero)) as [r' s'] eqn:Ef. cbn [fst snd] in *.
    destruct (IH (r', s' :: reps0) E) as (bs & [F G H (reps & I1 & I2) J]). cbn [fst snd] in *. exists (b :: bs). constructor; cbn [fst snd map concat]; auto.
    + rewrite F, A, rev_app_distr, app_assoc. auto.
    + intros k Hk. rewrite H, C, count_app by auto. lia.
    + exists (s' :: reps). split; [rewrite I1; cbn [rev]; rewrite <- app_assoc; auto|]. constructor; auto. intros k Hk. rewrite D by auto. destruct k; cbn; lia || congruence.
Qed.
Definition items (order : nat -> list (list case_)) (rs : list nat) : list (nat * list case_) := flat_map (fun n => map (pair n) (order n)) rs.
Lemma rounds_ok : forall o body order rs x, reason o (fst x) -> exists bs, suites_ok o body (items order rs) x (fold_left (visit_round o body order) rs x) bs.
Proof.
  induction rs as [|n rs IH]; intros x HI; cbn [fold_left].
  - exists []. constructor; cbn [items flat_map concat rev app]; try (constructor; fail); auto; [intros; rewrite count_nil; lia|exists []; split; auto].
  - unfold visit_round at 2. destruct (suites_fold_ok o body n (order n) x HI) as (bs & [A B C (reps & D1 & D2) E]).
    destruct (IH _ E) as (bs' & [F G H (reps' & I1 & I2) J]). exists (bs ++ bs'). constructor; auto.
    + rewrite F, A, concat_app, rev_app_distr, app_assoc. auto.
    + unfold items. cbn [flat_map]. apply Forall2_app; auto.
    + intros k Hk. rewrite H, C, concat_app, count_app by auto. lia.
    + exists (reps ++ reps'). split; [rewrite I1, D1, rev_app_distr, app_assoc; auto|]. apply Forall2_app; auto.
Qed.

Lemma items_agenda : forall o order, agenda o order = flat_map (fun it => map (pair (fst it)) (snd it)) (items order (seq 0 (run_rounds o))).
Proof.
  intros. unfold agenda, items. induction (seq 0 (run_rounds o)) as [|n l IH]; cbn [flat_map]; auto. rewrite flat_map_app, <- IH. f_equal.
  induction (order n) as [|cs ss IH2]; cbn [concat map flat_map fst snd]; auto. rewrite map_app, IH2. auto.
Qed.
Lemma F2_concat : forall (A B C : Type) (R : B -> C -> Prop) (f : A -> list B) l bs, Forall2 (fun it b => Forall2 R (f it) b) l bs -> Forall2 R (flat_map f l) (concat bs).
Proof. intros A B C R f l bs H. induction H; cbn [flat_map concat]; [constructor|]. apply Forall2_app; auto. Qed.

Lemma run_ok : forall o body order, let r := run o body order in exists bs,
  rev (r_log (fst r)) = concat bs /\
  Forall2 (treated o body) (agenda o order) (concat bs) /\
  (forall k, k <> Listed -> stat k (r_stats (fst r)) = count k (concat bs)) /\
  Forall2 (fun s b => forall k, k <> Listed -> stat k s = count k b) (rev (snd r)) bs /\
  Forall2 (fun it b => Forall2 (treated o body) (map (pair (fst it)) (snd it)) b) (items order (seq 0 (run_rounds o))) bs.
Proof.
  intros o body order. cbv zeta. destruct (rounds_ok o body order (seq 0 (run_rounds o)) (mkr zero [] [], [])) as (bs & [A B C (reps & D1 & D2) E]).
  - intro H. exfalso. apply H. auto.
  - fold (run o body order) in *. cbn [fst snd r_log r_stats] in *. exists bs. rewrite app_nil_r in A, D1. repeat split; auto.
    + rewrite A, rev_involutive. auto.
    + rewrite items_agenda. apply (F2_concat _ _ _ _ (fun it => map (pair (fst it)) (snd it))). auto.
    + intros k Hk. rewrite C by auto. destruct k; cbn; lia || congruence.
    + rewrite D1, rev_involutive. auto.
Qed.

Lemma every_case_once : forall o body order, Forall2 (treated o body) (agenda o order) (rev (r_log (fst (run o body order)))).
Proof. intros. destruct (run_ok o body order) as (bs & A & B & _). rewrite A. auto. Qed.
Lemma counts : forall o body order k, k <> Listed -> stat k (r_stats (fst (run o body order))) = count k (r_log (fst (run o body order))).
Proof. intros. destruct (run_ok o body order) as (bs & A & B & C & _). rewrite C by auto. rewrite <- A, count_rev. auto. Qed.
Lemma F2_len : forall (A B : Type) (R : A -> B -> Prop) l l', Forall2 R l l' -> length l = length l'.
Proof. intros A B R l l' H. induction H; cbn; auto. Qed.
Lemma class_total : forall l, (forall v, In v l -> v_class v <> Listed) ->
  count Passed l + count Failed l + count Warning l + count Todo l + count Filtered l + count Ignored l = Z.of_nat (length l).
Proof.
  induction l as [|v l IH]; intros H; [reflexivity|]. rewrite !count_cons. cbn [length]. assert (Hv := H v (or_introl eq_refl)).
  assert (IH' := IH (fun w Hw => H w (or_intror Hw))). destruct (v_class v); cbn [class_eqb]; try congruence; lia.
Qed.
Lemma F2_in_r : forall (A B : Type) (R : A -> B -> Prop) l l' y, Forall2 R l l' -> In y l' -> exists x, In x l /\ R x y.
Proof. intros A B R l l' y H. induction H; intros I; [destruct I|]. destruct I as [<-|I]; [exists x; split; auto; left; auto|]. destruct (IHForall2 I) as (z & P & Q). exists z. split; auto. right. auto. Qed.
Lemma total : forall o body order, lists o = false ->
  let s := r_stats (fst (run o body order)) in passed s + failed s + warning s + todo s + filtered s + ignored s = Z.of_nat (length (agenda o order)).
Proof.
  intros o body order L. cbv zeta. pose proof (every_case_once o body order) as F. pose proof (counts o body order) as C.
  rewrite (F2_len _ _ _ _ _ F), rev_length, <- class_total.
  - rewrite <- !C by discriminate. reflexivity.
  - intros v Hv E. apply in_rev in Hv. destruct (F2_in_r _ _ _ _ _ _ F Hv) as ([n c] & _ & T). inversion T; subst; cbn in E; congruence.
Qed.
Lemma suite_reports : forall o body order, exists bs, concat bs = rev (r_log (fst (run o body order))) /\
  Forall2 (fun s b => forall k, k <> Listed -> stat k s = count k b) (rev (snd (run o body order))) bs /\
  Forall2 (fun it b => Forall2 (treated o body) (map (pair (fst it)) (snd it)) b) (flat_map (fun n => map (pair n) (order n)) (seq 0 (run_rounds o))) bs.
Proof. intros. destruct (run_ok o body order) as (bs & A & B & C & D & E). exists bs. auto. Qed.

(** *** early stop *)
Record stop_inv (o : opts) (body : oracle) (r : rstate) (done : list (nat * case_)) : Prop := mkstop {
  st_exec : exists rest, map (fun x => (fst x, c_id (snd x))) (filter (fun x => negb (c_todo (snd x)) && negb (c_filtered (snd x))) done) = executed (rev (r_log r)) ++ rest /\
     (rest <> [] -> break_after_fails o <= failed (r_stats r));
  st_nfail : nfail body (executed (rev (r_log r))) = failed (r_stats r);
  st_ign : r_ignored r <> [] -> break_after_fails o <= failed (r_stats r);
  st_short : forall p q, executed (rev (r_log r)) = p ++ q -> q <> [] -> nfail body p < break_after_fails o }.

Lemma executed_snoc : forall l v, executed (l ++ [v]) = executed l ++ (if v_executed v then [(v_round v, v_case v)] else []).
Proof. intros. unfold executed. rewrite filter_app, map_app. cbn [filter]. destruct (v_executed v); auto. Qed.
Lemma nfail_app : forall body a b, nfail body (a ++ b) = nfail body a + nfail body b.
Proof. intros. unfold nfail. rewrite filter_app, app_length. lia. Qed.
Lemma nfail_le : forall body a b, nfail body a <= nfail body (a ++ b).
Proof. intros. rewrite nfail_app. unfold nfail. lia. Qed.

Lemma stop_step : forall o body n r ss c done, 0 < break_after_fails o -> only_last_failed o = false -> lists o = false ->
  stop_inv o body r done -> stop_inv o body (fst (visit_case o body n (r, ss) c)) (done ++ [(n, c)]).
Proof.
  intros o body n r ss c done Hb Ho Hl [(rest & E1 & E2) Nf Ig Sh].
  unfold visit_case. rewrite Ho, Hl. cbn [andb orb negb]. rewrite orb_false_r.
  replace (0 <? break_after_fails o) with true by (symmetry; apply Z.ltb_lt; auto). cbn [andb].
  set (B := break_after_fails o) in *. set (F := failed (r_stats r)) in *.
  set (elig := fun x : nat * case_ => negb (c_todo (snd x)) && negb (c_filtered (snd x))) in *.
  assert (Snoc : map (fun x : nat * case_ => (fst x, c_id (snd x))) (filter elig (done ++ [(n, c)])) =
    (executed (rev (r_log r)) ++ rest) ++ (if elig (n, c) then [(n, c_id c)] else [])).
  { rewrite filter_app, map_app, E1. f_equal. cbn [filter]. destruct (elig (n, c)); auto. }
  destruct (Z.leb_spec B F) as [Le|Gt].
  - (* stopped *)
    cbv zeta. cbn [existsb]. rewrite N.eqb_refl. cbn [orb negb]. rewrite andb_false_r.
    constructor; cbn [fst r_log r_stats r_ignored rev]; rewrite ?executed_snoc; cbn [v_executed]; rewrite ?app_nil_r; auto.
    exists (rest ++ (if elig (n, c) then [(n, c_id c)] else [])). fold elig. rewrite Snoc, <- app_assoc. split; auto.
  - assert (Rg : r_ignored r = []) by (destruct (r_ignored r); auto; exfalso; assert (B <= F) by (apply Ig; discriminate); lia).
    assert (Rr : rest = []) by (destruct rest; auto; exfalso; assert (B <= F) by (apply E2; discriminate); lia). subst rest.
    rewrite app_nil_r in Snoc, E1. cbv zeta. rewrite Rg. cbn [existsb negb]. rewrite !andb_true_r.
    destruct (c_filtered c) eqn:Fi; [|destruct (c_todo c) eqn:To]; cbn [negb andb].
    + replace (elig (n, c)) with false in Snoc by (unfold elig; cbn; rewrite Fi, andb_false_r; auto). rewrite ?andb_false_r. rewrite app_nil_r in Snoc.
      constructor; cbn [fst r_log r_stats r_ignored rev]; rewrite ?executed_snoc; cbn [v_executed]; rewrite ?app_nil_r; auto.
      exists []. fold elig. rewrite Snoc, app_nil_r. split; [auto|congruence].
    + replace (elig (n, c)) with false in Snoc by (unfold elig; cbn; rewrite To; auto). rewrite app_nil_r in Snoc.
      constructor; cbn [fst r_log r_stats r_ignored rev]; rewrite ?executed_snoc; cbn [v_executed]; rewrite ?app_nil_r; auto.
      exists []. fold elig. rewrite Snoc, app_nil_r. split; [auto|congruence].
    + replace (elig (n, c)) with true in Snoc by (unfold elig; cbn; rewrite To, Fi; auto).
      destruct (body n (c_id c)) as [f w] eqn:Bo. constructor; cbn [fst r_log r_stats r_ignored rev]; rewrite ?executed_snoc; cbn [v_executed v_round v_case].
      * exists []. fold elig. rewrite Snoc, app_nil_r. split; [auto|congruence].
      * rewrite nfail_app, Nf. unfold nfail. cbn [filter fst snd]. rewrite Bo. cbn [fst]. fold F. destruct f; [|destruct w]; cbn [length bump failed]; lia.
      * congruence.
      * intros p q Eq Hq. destruct (exists_last Hq) as (q' & x & ->). rewrite app_assoc in Eq. apply app_inj_tail in Eq. destruct Eq as [Eq _].
        apply Z.le_lt_trans with (nfail body (executed (rev (r_log r)))); [rewrite Eq; apply nfail_le|]. rewrite Nf. exact Gt.
Qed.

Lemma stop_cases : forall o body n cs r ss done, 0 < break_after_fails o -> only_last_failed o = false -> lists o = false ->
  stop_inv o body r done -> stop_inv o body (fst (fold_left (visit_case o body n) cs (r, ss))) (done ++ map (pair n) cs).
Proof.
  induction cs as [|c cs IH]; intros r ss done H1 H2 H3 I; cbn [fold_left map]; [rewrite app_nil_r; auto|].
  pose proof (stop_step o body n r ss c done H1 H2 H3 I) as I'. destruct (visit_case o body n (r, ss) c) as [r' ss'].
  replace (done ++ (n, c) :: map (pair n) cs) with ((done ++ [(n, c)]) ++ map (pair n) cs) by (rewrite <- app_assoc; auto). apply IH; auto.
Qed.
Lemma stop_suites : forall o body n ss r reps done, 0 < break_after_fails o -> only_last_failed o = false -> lists o = false ->
  stop_inv o body r done -> stop_inv o body (fst (fold_left (visit_suite o body n) ss (r, reps))) (done ++ map (pair n) (concat ss)).
Proof.
  induction ss as [|cs ss IH]; intros r reps done H1 H2 H3 I; cbn [fold_left concat]; [cbn; rewrite app_nil_r; auto|].
  cbn [visit_suite]. pose proof (stop_cases o body n cs r zero done H1 H2 H3 I) as I'.
  destruct (fold_left (visit_case o body n) cs (r, zero)) as [r' s']. rewrite map_app, app_assoc. apply IH; auto.
Qed.
Lemma stop_rounds : forall o body order rs r reps done, 0 < break_after_fails o -> only_last_failed o = false -> lists o = false ->
  stop_inv o body r done -> stop_inv o body (fst (fold_left (visit_round o body order) rs (r, reps))) (done ++ flat_map (fun n => map (pair n) (concat (order n))) rs).
Proof.
  induction rs as [|n rs IH]; intros r reps done H1 H2 H3 I; cbn [fold_left flat_map]; [rewrite app_nil_r; auto|].
  unfold visit_round at 2. pose proof (stop_suites o body n (order n) r reps done H1 H2 H3 I) as I'.
  destruct (fold_left (visit_suite o body n) (order n) (r, reps)) as [r' s']. rewrite app_assoc. apply IH; auto.
Qed.

Lemma early_stop : forall o body order, 0 < break_after_fails o -> only_last_failed o = false -> lists o = false ->
  exists rest, let ex := executed (rev (r_log (fst (run o body order)))) in
  eligible o order = ex ++ rest /\ nfail body ex <= break_after_fails o /\ (rest <> [] -> nfail body ex = break_after_fails o) /\
  (forall p q, ex = p ++ q -> q <> [] -> nfail body p < break_after_fails o).
Proof.
  intros o body order H1 H2 H3. unfold run.
  destruct (stop_rounds o body order (seq 0 (run_rounds o)) (mkr zero [] []) [] [] H1 H2 H3) as [(rest & E1 & E2) Nf Ig Sh].
  - constructor; cbn; auto.
    + exists []. split; [auto|congruence].
    + congruence.
    + intros [|a p] [|b q] E; try discriminate; congruence.
  - set (r := fst (fold_left _ _ _)) in *. cbn [app] in E1. exists rest. cbv zeta. split; [exact E1|].
    assert (U : nfail body (executed (rev (r_log r))) <= break_after_fails o).
    { destruct (executed (rev (r_log r))) as [|x l] eqn:Ex; [unfold nfail; cbn; lia|].
      destruct (exists_last (l := x :: l)) as (l' & y & Ey); [discriminate|]. rewrite Ey in *. 
      assert (nfail body l' < break_after_fails o) by (apply (Sh l' [y]); auto; discriminate). rewrite nfail_app.
      assert (nfail body [y] <= 1) by (unfold nfail; cbn [filter]; destruct (fst (body (fst y) (snd y))); cbn; lia). lia. }
    split; auto. split; auto. intro Hr. apply E2 in Hr. lia.
Qed.

Lemma exit_zero : forall o body order, exit_with_fails o = true -> (count Failed (r_log (fst (run o body order))) mod 256 = 0 -> count Failed (r_log (fst (run o body order))) = 0) ->
  (exit_status (main_result o (fst (run o body order))) = 0 <-> forall v, In v (r_log (fst (run o body order))) -> v_class v <> Failed).
Proof.
  intros o body order H L. unfold exit_status, main_result. rewrite H. pose proof (counts o body order Failed) as C. cbn [stat] in C. rewrite C by discriminate.
  set (log := r_log (fst (run o body order))) in *. assert (H1 : count Failed log mod 256 = 0 <-> count Failed log = 0) by (split; [exact L|intros ->; reflexivity]).
  rewrite H1. clear H1 L C.
  split.
  - intros Z v Hv E. unfold count in Z. assert (In v (filter (fun v => class_eqb (v_class v) Failed) log)) as H1 by (apply filter_In; split; auto; rewrite E; auto).
    destruct (filter (fun v => class_eqb (v_class v) Failed) log); [destruct H1|cbn in Z; lia].
  - intro N. unfold count. destruct (filter (fun v => class_eqb (v_class v) Failed) log) as [|v l] eqn:E; auto. exfalso.
    assert (I : In v (filter (fun v => class_eqb (v_class v) Failed) log)) by (rewrite E; left; auto). apply filter_In in I. destruct I as [I1 I2].
    apply (N v I1). destruct (v_class v); auto; discriminate.
Qed.
