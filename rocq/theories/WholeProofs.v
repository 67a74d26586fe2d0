(** Proofs about whole runs: shape of what happens. *)
From Coq Require Import List ZArith NArith Bool Arith Lia.
From Verif Require Import RunnerModel RunnerSpec WholeModel WholeSpec.
Import ListNotations.
Local Open Scope N_scope.

(** * arrays *)
Lemma append_full : forall l x r, array_append (map Some l ++ None :: None :: r) x = map Some (l ++ [x]) ++ None :: r.
Proof.
  induction l as [|y l IH]; intros x r; [reflexivity|]. cbn [map app]. specialize (IH x r). cbn [map app] in *.
  destruct (map Some l ++ None :: None :: r) eqn:E; [destruct l; discriminate|].
  change (array_append (Some y :: o :: l0) x) with (Some y :: array_append (o :: l0) x). rewrite IH. reflexivity.
Qed.
Lemma append_stuck : forall l x, array_append (map Some l ++ [None]) x = map Some l ++ [None].
Proof.
  induction l as [|y l IH]; intros x; [reflexivity|]. cbn [map app]. specialize (IH x).
  destruct (map Some l ++ [None]) eqn:E; [destruct l; discriminate|].
  change (array_append (Some y :: o :: l0) x) with (Some y :: array_append (o :: l0) x). rewrite IH. reflexivity.
Qed.
Lemma append_repeat : forall l k x, (0 < k)%nat ->
  array_append (map Some l ++ repeat None k) x = map Some (firstn (length l + k - 1) (l ++ [x])) ++ repeat None (length l + k - length (firstn (length l + k - 1) (l ++ [x]))).
Proof.
  intros l k x Hk. destruct k as [|[|k]]; [lia| |].
  - rewrite append_stuck. replace (length l + 1 - 1)%nat with (length l) by lia. rewrite firstn_app, Nat.sub_diag, firstn_all. cbn [firstn]. rewrite app_nil_r.
    replace (length l + 1 - length l)%nat with 1%nat by lia. reflexivity.
  - cbn [repeat]. rewrite append_full. rewrite (firstn_all2 (n := (length l + S (S k) - 1)%nat)) by (rewrite app_length; cbn [length]; lia).
    rewrite app_length. cbn [length]. replace (length l + S (S k) - (length l + 1))%nat with (S k) by lia. reflexivity.
Qed.
Definition arr (n : nat) (l : list N) : array := map Some l ++ repeat None (n - length l).
Lemma arr_append : forall n l x, (length l < n)%nat -> array_append (arr n l) x = arr n (firstn (n - 1) (l ++ [x])).
Proof. intros n l x H. unfold arr. rewrite append_repeat by lia. replace (length l + (n - length l))%nat with n by lia. reflexivity. Qed.
Lemma firstn_firstn_app : forall A n (a b : list A), firstn n (firstn n a ++ b) = firstn n (a ++ b).
Proof.
  intros A n a b. destruct (le_lt_dec (length a) n) as [H|H].
  - rewrite (firstn_all2 a) by lia. reflexivity.
  - rewrite !firstn_app. rewrite firstn_length, (Nat.min_l n) by lia. replace (n - length a)%nat with 0%nat by lia. rewrite Nat.sub_diag. cbn [firstn]. rewrite firstn_firstn, Nat.min_id. reflexivity.
Qed.
Lemma fold_append : forall n l k, (length k < n)%nat -> fold_left array_append l (arr n k) = arr n (firstn (n - 1) (k ++ l)).
Proof.
  intros n l. induction l as [|x l IH]; intros k H; cbn [fold_left].
  - rewrite app_nil_r. rewrite firstn_all2 by lia. reflexivity.
  - rewrite arr_append by lia. rewrite IH by (rewrite firstn_length; lia). rewrite firstn_firstn_app. rewrite <- app_assoc. reflexivity.
Qed.
Lemma registered_arr : forall n l, registered (S n) l = arr (S n) (firstn n l).
Proof.
  intros n l. unfold registered. change (repeat None (S n)) with (arr (S n) []). rewrite fold_append by (cbn [length]; lia). cbn [app].
  replace (S n - 1)%nat with n by lia. reflexivity.
Qed.
Lemma walk_arr : forall n l, (length l < n)%nat -> array_walk (arr n l) = Some l.
Proof.
  intros n l H. unfold arr. destruct (n - length l)%nat as [|k] eqn:E; [lia|]. clear. induction l as [|x l IH]; [reflexivity|]. cbn [map app array_walk]. rewrite IH. reflexivity.
Qed.
Lemma kept : forall l, array_walk (registered 1024 l) = Some (firstn 1023 l).
Proof. intro l. rewrite (registered_arr 1023). apply walk_arr. rewrite firstn_length. apply (Nat.le_lt_trans _ 1023); [apply Nat.le_min_l|apply Nat.lt_succ_diag_r]. Qed.
Lemma reports_ok : forall p o, array_walk (reports_of p o) = Some (firstn 7 (wanted p o)).
Proof.
  intros p o. unfold reports_of, wanted. rewrite (registered_arr 7).
  assert (L : forall l : list N, (length (firstn 7 l) < 8)%nat) by (intro l; rewrite firstn_length; lia).
  destruct (lists o); [|destruct (p_path p)].
  - rewrite arr_append by apply L. rewrite walk_arr by apply L. change (8 - 1)%nat with 7%nat. rewrite firstn_firstn_app. reflexivity.
  - rewrite !arr_append by apply L. change (8 - 1)%nat with 7%nat. rewrite walk_arr by apply L. rewrite !firstn_firstn_app, <- app_assoc, ?firstn_firstn_app. reflexivity.
  - rewrite arr_append by apply L. rewrite walk_arr by apply L. change (8 - 1)%nat with 7%nat. rewrite firstn_firstn_app. reflexivity.
Qed.

(** * shape *)
Section Shape.
Variables (o : opts) (body : oracle) (hs : hook -> list N) (rs : list N).
Definition item := (nat * N * bool)%type.
Definition case_block (s : N) (i : item) : list event :=
  let '(n, c, b) := i in tell rs (CaseStart s c) ++ (if b then calls hs CaseSetup ++ [Body n c] ++ calls hs CaseCleanup else []) ++ tell rs (CaseEnd s c).
Definition suite_block (l : N * list item) : list event :=
  tell rs (SuiteStart (fst l)) ++ calls hs SuiteSetup ++ [Open (fst l)] ++ flat_map (case_block (fst l)) (snd l) ++ [Close (fst l)] ++ calls hs SuiteCleanup ++ tell rs (SuiteEnd (fst l)).
Definition ran (l : list item) : list (nat * N) := map fst (filter snd l).
Definition id_of (i : item) : N := snd (fst i).
Definition new_log (r r' : rstate) (l : list (nat * N)) : Prop := executed (rev (r_log r')) = executed (rev (r_log r)) ++ l.

Lemma visit_log : forall n x c, exists v, r_log (fst (visit_case o body n x c)) = v :: r_log (fst x) /\ v_round v = n /\ v_case v = c_id c.
Proof.
  intros n [r ss] c. unfold visit_case.
  match goal with |- context [if ?g then (bump Ignored _, _) else _] => destruct g end; [|destruct (c_filtered c); [|destruct (c_todo c)]];
  match goal with |- context [if ?g then let (f, w) := body _ _ in _ else _] => destruct g end; try destruct (body n (c_id c)); cbn; eexists; split; try reflexivity; split; reflexivity.
Qed.
Lemma executed_rev_cons : forall v l, executed (rev (v :: l)) = executed (rev l) ++ (if v_executed v then [(v_round v, v_case v)] else []).
Proof. intros v l. cbn [rev]. unfold executed. rewrite filter_app, map_app. cbn [filter]. destruct (v_executed v); reflexivity. Qed.
Lemma case_shape : forall n s x t c, exists b, whole_case o body hs rs n s (x, t) c = (visit_case o body n x c, t ++ case_block s (n, c_id c, b)) /\
  new_log (fst x) (fst (visit_case o body n x c)) (ran [(n, c_id c, b)]).
Proof.
  intros n s x t c. unfold whole_case. destruct (visit_log n x c) as (v & E & Hn & Hc). rewrite E. exists (v_executed v). split; [reflexivity|].
  unfold new_log. rewrite E, executed_rev_cons, Hn, Hc. unfold ran. cbn [filter snd]. destruct (v_executed v); reflexivity.
Qed.
Lemma ran_app : forall a b, ran (a ++ b) = ran a ++ ran b.
Proof. intros a b. unfold ran. rewrite filter_app, map_app. reflexivity. Qed.
Lemma cases_shape : forall n s cs x t, exists l, fold_left (whole_case o body hs rs n s) cs (x, t) = (fold_left (visit_case o body n) cs x, t ++ flat_map (case_block s) l) /\
  map id_of l = map c_id cs /\ new_log (fst x) (fst (fold_left (visit_case o body n) cs x)) (ran l).
Proof.
  intros n s cs. induction cs as [|c cs IH]; intros x t.
  - exists []. cbn. rewrite app_nil_r. unfold new_log. rewrite app_nil_r. repeat split.
  - cbn [fold_left]. destruct (case_shape n s x t c) as (b & E & L). rewrite E. destruct (IH (visit_case o body n x c) (t ++ case_block s (n, c_id c, b))) as (l & E2 & M & L2).
    exists ((n, c_id c, b) :: l). split; [|split].
    + rewrite E2. cbn [flat_map]. rewrite <- app_assoc. reflexivity.
    + cbn [map]. rewrite M. reflexivity.
    + unfold new_log in *. rewrite L2, L, <- app_assoc. f_equal. change ((n, c_id c, b) :: l) with ([(n, c_id c, b)] ++ l). rewrite ran_app. reflexivity.
Qed.
Definition fits (l : list (N * list item)) (g : list (N * list case_)) : Prop := Forall2 (fun a b => fst a = fst b /\ map id_of (snd a) = map c_id (snd b)) l g.
Definition all_ran (l : list (N * list item)) : list (nat * N) := flat_map (fun a => ran (snd a)) l.
Lemma suite_shape : forall n r reps t s, exists l, whole_suite o body hs rs n (r, t) s = (fst (visit_suite o body n (r, reps) (snd s)), t ++ suite_block (fst s, l)) /\
  map id_of l = map c_id (snd s) /\ new_log r (fst (visit_suite o body n (r, reps) (snd s))) (ran l).
Proof.
  intros n r reps t s. unfold whole_suite, visit_suite.
  destruct (cases_shape n (fst s) (snd s) (r, zero) (t ++ tell rs (SuiteStart (fst s)) ++ calls hs SuiteSetup ++ [Open (fst s)])) as (l & E & M & L).
  rewrite E. destruct (fold_left (visit_case o body n) (snd s) (r, zero)) as [r' ss]. exists l. split; [|split; [exact M|exact L]].
  unfold suite_block. cbn [fst snd]. rewrite <- !app_assoc. reflexivity.
Qed.
Lemma suites_shape : forall n g r reps t, exists l, fold_left (whole_suite o body hs rs n) g (r, t) = (fst (fold_left (visit_suite o body n) (map snd g) (r, reps)), t ++ flat_map suite_block l) /\
  fits l g /\ new_log r (fst (fold_left (visit_suite o body n) (map snd g) (r, reps))) (all_ran l).
Proof.
  intros n g. induction g as [|s g IH]; intros r reps t.
  - exists []. cbn. unfold new_log. rewrite !app_nil_r. repeat split. constructor.
  - cbn [fold_left map]. destruct (suite_shape n r reps t s) as (l & E & M & L). rewrite E. destruct (visit_suite o body n (r, reps) (snd s)) as [r1 reps1]. cbn [fst] in *.
    destruct (IH r1 reps1 (t ++ suite_block (fst s, l))) as (l2 & E2 & F & L2). exists ((fst s, l) :: l2). split; [|split].
    + rewrite E2. cbn [flat_map]. rewrite <- app_assoc. reflexivity.
    + constructor; [split; [reflexivity|exact M]|exact F].
    + unfold new_log in *. rewrite L2, L, <- app_assoc. reflexivity.
Qed.
Lemma rounds_shape : forall order ns r reps t, exists l, fold_left (whole_round o body hs rs order) ns (r, t) = (fst (fold_left (visit_round o body (fun n => map snd (order n))) ns (r, reps)), t ++ flat_map suite_block l) /\
  fits l (flat_map order ns) /\ new_log r (fst (fold_left (visit_round o body (fun n => map snd (order n))) ns (r, reps))) (all_ran l).
Proof.
  intros order ns. induction ns as [|n ns IH]; intros r reps t.
  - exists []. cbn. unfold new_log. rewrite !app_nil_r. repeat split. constructor.
  - cbn [fold_left flat_map]. unfold whole_round at 2. unfold visit_round at 2 4. destruct (suites_shape n (order n) r reps t) as (l & E & F & L). rewrite E.
    destruct (fold_left (visit_suite o body n) (map snd (order n)) (r, reps)) as [r1 reps1]. cbn [fst] in *.
    destruct (IH r1 reps1 (t ++ flat_map suite_block l)) as (l2 & E2 & F2 & L2). exists (l ++ l2). split; [|split].
    + rewrite E2. rewrite flat_map_app, app_assoc. reflexivity.
    + apply Forall2_app; assumption.
    + unfold new_log in *. unfold all_ran in *. rewrite L2, L, flat_map_app, <- app_assoc. reflexivity.
Qed.
Lemma whole_rounds_shape : forall order, exists l, whole_rounds o body hs rs order = (fst (run o body (fun n => map snd (order n))), flat_map suite_block l) /\
  fits l (turns o order) /\ all_ran l = executed (rev (r_log (fst (run o body (fun n => map snd (order n)))))).
Proof.
  intro order. unfold whole_rounds, run. destruct (rounds_shape order (seq 0 (run_rounds o)) (mkr zero [] []) [] []) as (l & E & F & L).
  exists l. split; [exact E|]. split; [exact F|]. symmetry. exact L.
Qed.
End Shape.

Definition hooks_kept (p : program) (h : hook) : list N := firstn 1023 (p_hooks p h).
Definition frame (p : program) (o : opts) (l : list (N * list item)) : list event :=
  calls (hooks_kept p) GlobalSetup ++ collect (hooks_kept p) (p_suites p) ++ tell (firstn 7 (wanted p o)) RunnerStart ++
  flat_map (suite_block (hooks_kept p) (firstn 7 (wanted p o))) l ++ tell (firstn 7 (wanted p o)) RunnerEnd ++ calls (hooks_kept p) GlobalCleanup.
Lemma hooks_ext : forall o body hs hs' rs order, (forall h, hs h = hs' h) -> whole_rounds o body hs rs order = whole_rounds o body hs' rs order.
Proof.
  intros o body hs hs' rs order H. assert (C : forall h, calls hs h = calls hs' h) by (intro h; unfold calls; rewrite H; reflexivity).
  assert (FE : forall (A B : Type) (f g : A -> B -> A) l a, (forall a b, f a b = g a b) -> fold_left f l a = fold_left g l a).
  { intros A B f g l. induction l as [|x l IH]; intros a E; [reflexivity|]. cbn [fold_left]. rewrite E. apply IH. exact E. }
  unfold whole_rounds. apply FE. intros x n. unfold whole_round. apply FE. intros [r t] s. unfold whole_suite. rewrite !C.
  rewrite (FE _ _ _ (whole_case o body hs' rs n (fst s)) (snd s)); [reflexivity|]. intros [st t'] c. unfold whole_case. rewrite !C. reflexivity.
Qed.
Lemma whole_shape : forall p o body order, exists l, whole p o body order = Some (fst (run o body (fun n => map snd (order n))), frame p o l) /\
  fits l (turns o order) /\ all_ran l = executed (rev (r_log (fst (run o body (fun n => map snd (order n)))))).
Proof.
  intros p o body order. unfold whole. rewrite reports_ok, !kept.
  destruct (whole_rounds_shape o body (hooks_kept p) (firstn 7 (wanted p o)) order) as (l & E & F & R). exists l. split; [|split; assumption].
  match goal with |- context [whole_rounds o body ?h ?r order] => rewrite (hooks_ext o body h (hooks_kept p) r order) by (intros []; reflexivity) end.
  rewrite E. reflexivity.
Qed.
