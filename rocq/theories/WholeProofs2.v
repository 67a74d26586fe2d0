(** Proofs about whole runs: reports, bodies, hooks. *)
From Coq Require Import List ZArith NArith Bool Arith Lia.
From Verif Require Import RunnerModel RunnerSpec WholeModel WholeSpec WholeProofs.
Import ListNotations.
Local Open Scope N_scope.

Ltac flat := repeat rewrite flat_map_app; repeat rewrite filter_app.
Lemma flat_map_nil : forall (A B : Type) (f : A -> list B) l, (forall a, In a l -> f a = []) -> flat_map f l = [].
Proof. intros A B f l. induction l as [|a l IH]; intro H; [reflexivity|]. cbn [flat_map]. rewrite H by (left; reflexivity). apply IH. intros b Hb. apply H. right. exact Hb. Qed.
Lemma flat_map_map : forall (A B C : Type) (f : B -> list C) (g : A -> B) l, flat_map f (map g l) = flat_map (fun a => f (g a)) l.
Proof. intros A B C f g l. induction l as [|a l IH]; [reflexivity|]. cbn. rewrite IH. reflexivity. Qed.
Lemma flat_map_flat_map : forall (A B C : Type) (f : B -> list C) (g : A -> list B) l, flat_map f (flat_map g l) = flat_map (fun a => flat_map f (g a)) l.
Proof. intros A B C f g l. induction l as [|a l IH]; [reflexivity|]. cbn. rewrite flat_map_app, IH. reflexivity. Qed.
Lemma flat_map_ext2 : forall (A B : Type) (f g : A -> list B) l, (forall a, f a = g a) -> flat_map f l = flat_map g l.
Proof. intros A B f g l H. induction l as [|a l IH]; [reflexivity|]. cbn. rewrite H, IH. reflexivity. Qed.

(** * reports *)
Lemma heard_app : forall x a b, heard x (a ++ b) = heard x a ++ heard x b.
Proof. intros. unfold heard. apply flat_map_app. Qed.
Lemma heard_calls : forall x hs h, heard x (calls hs h) = [].
Proof. intros x hs h. unfold heard, calls. apply flat_map_nil. intros a H. apply in_map_iff in H. destruct H as (f & <- & _). reflexivity. Qed.
Lemma heard_collect : forall x hs l, heard x (collect hs l) = [].
Proof.
  intros x hs l. unfold collect, heard. rewrite flat_map_flat_map. apply flat_map_nil. intros s _. flat. fold (heard x (calls hs SuiteSetup)). fold (heard x (calls hs SuiteCleanup)). rewrite !heard_calls. reflexivity.
Qed.
Lemma heard_not : forall x rs n, ~ In x rs -> heard x (tell rs n) = [].
Proof.
  intros x rs n H. unfold heard, tell. apply flat_map_nil. intros a Ha. apply in_map_iff in Ha. destruct Ha as (r & <- & Hr). destruct (N.eqb_spec r x); [subst; contradiction|reflexivity].
Qed.
Lemma heard_tell : forall x rs n, NoDup rs -> In x rs -> heard x (tell rs n) = [n].
Proof.
  intros x rs n H. induction H as [|r rs Hr H IH]; intro I; [contradiction|]. cbn. destruct (N.eqb_spec r x) as [->|D].
  - cbn. fold (tell rs n). fold (heard x (tell rs n)). rewrite heard_not by exact Hr. reflexivity.
  - cbn. apply IH. destruct I as [I|I]; [contradiction|exact I].
Qed.
Lemma heard_case : forall x hs rs s i, NoDup rs -> In x rs -> heard x (case_block hs rs s i) = [CaseStart s (id_of i); CaseEnd s (id_of i)].
Proof.
  intros x hs rs s [[n c] b] H I. unfold case_block. rewrite !heard_app, !heard_tell by assumption. destruct b; [rewrite !heard_app, !heard_calls|]; reflexivity.
Qed.
Definition suite_story (s : N) (ids : list N) : list news := SuiteStart s :: flat_map (fun c => [CaseStart s c; CaseEnd s c]) ids ++ [SuiteEnd s].
Lemma heard_suite : forall x hs rs l, NoDup rs -> In x rs -> heard x (suite_block hs rs l) = suite_story (fst l) (map id_of (snd l)).
Proof.
  intros x hs rs l H I. unfold suite_block, suite_story. rewrite !heard_app, !heard_calls, !heard_tell by assumption. cbn [heard flat_map app]. f_equal. f_equal.
  unfold heard. rewrite flat_map_flat_map. rewrite flat_map_map. apply flat_map_ext2. intro i. apply heard_case; assumption.
Qed.
Lemma heard_suites : forall x hs rs l g, NoDup rs -> In x rs -> fits l g -> heard x (flat_map (suite_block hs rs) l) = flat_map (fun s => suite_story (fst s) (map c_id (snd s))) g.
Proof.
  intros x hs rs l g H I F. induction F as [|a b l g [E1 E2] F IH]; [reflexivity|]. cbn [flat_map]. rewrite heard_app, IH, heard_suite, E1, E2 by assumption. reflexivity.
Qed.
Lemma NoDup_firstn : forall (A : Type) n (l : list A), NoDup l -> NoDup (firstn n l).
Proof.
  intros A n l. revert n. induction l as [|a l IH]; intros n H; [destruct n; constructor|]. destruct n as [|n]; [constructor|]. inversion_clear H as [|? ? Ha Hl]. cbn. constructor; [|apply IH; exact Hl].
  intro Hin. apply Ha. clear - Hin. revert n Hin. induction l as [|b l IH]; intros n H; [destruct n; contradiction|]. destruct n as [|n]; [contradiction|]. destruct H as [->|H]; [left; reflexivity|right; apply (IH n H)].
Qed.
Lemma told : forall p o body order r t x, whole p o body order = Some (r, t) -> NoDup (wanted p o) -> In x (firstn 7 (wanted p o)) -> heard x t = story (turns o order).
Proof.
  intros p o body order r t x W D I. destruct (whole_shape p o body order) as (l & E & F & _). rewrite W in E. injection E as _ ->. unfold frame.
  apply (NoDup_firstn _ 7) in D. rewrite !heard_app, !heard_calls, heard_collect, !heard_tell by assumption. rewrite (heard_suites _ _ _ _ _ D I F). unfold story. cbn [app]. f_equal.
  rewrite ?app_nil_r. f_equal. apply flat_map_ext2. intro s. unfold suite_story. rewrite flat_map_map. reflexivity.
Qed.
Lemma heard_none : forall x hs rs l, ~ In x rs -> heard x (flat_map (suite_block hs rs) l) = [].
Proof.
  intros x hs rs l H. unfold heard. rewrite flat_map_flat_map. apply flat_map_nil. intros a _. fold (heard x (suite_block hs rs a)). unfold suite_block. rewrite !heard_app, !heard_calls, !heard_not by exact H.
  cbn. rewrite !app_nil_r. unfold heard. rewrite flat_map_flat_map. apply flat_map_nil. intros [[n c] b] _. fold (heard x (case_block hs rs (fst a) (n, c, b))). unfold case_block. rewrite !heard_app, !heard_not by exact H.
  destruct b; [rewrite !heard_app, !heard_calls|]; reflexivity.
Qed.
Lemma not_told : forall p o body order r t x, whole p o body order = Some (r, t) -> ~ In x (firstn 7 (wanted p o)) -> heard x t = [].
Proof.
  intros p o body order r t x W I. destruct (whole_shape p o body order) as (l & E & _). rewrite W in E. injection E as _ ->. unfold frame.
  rewrite !heard_app, !heard_calls, heard_collect, !heard_not, heard_none by exact I. reflexivity.
Qed.

(** * same run *)
Lemma same_run : forall p o body order, exists t, whole p o body order = Some (fst (run o body (fun n => map snd (order n))), t).
Proof. intros p o body order. destruct (whole_shape p o body order) as (l & E & _). eexists. exact E. Qed.

(** * bodies *)
Lemma bodies_app : forall a b, bodies (a ++ b) = bodies a ++ bodies b.
Proof. intros. unfold bodies. apply flat_map_app. Qed.
Lemma bodies_calls : forall hs h, bodies (calls hs h) = [].
Proof. intros hs h. unfold bodies, calls. apply flat_map_nil. intros a H. apply in_map_iff in H. destruct H as (f & <- & _). reflexivity. Qed.
Lemma bodies_tell : forall rs n, bodies (tell rs n) = [].
Proof. intros rs n. unfold bodies, tell. apply flat_map_nil. intros a H. apply in_map_iff in H. destruct H as (f & <- & _). reflexivity. Qed.
Lemma bodies_collect : forall hs l, bodies (collect hs l) = [].
Proof. intros hs l. unfold collect, bodies. rewrite flat_map_flat_map. apply flat_map_nil. intros s _. fold (bodies (calls hs SuiteSetup ++ [Open s; Enumerate s; Close s] ++ calls hs SuiteCleanup)). rewrite !bodies_app, !bodies_calls. reflexivity. Qed.
Lemma bodies_cases : forall hs rs s l, bodies (flat_map (case_block hs rs s) l) = ran l.
Proof.
  intros hs rs s l. induction l as [|[[n c] b] l IH]; [reflexivity|]. cbn [flat_map]. rewrite bodies_app, IH. unfold case_block. rewrite !bodies_app, !bodies_tell. unfold ran. cbn [filter snd].
  destruct b; [rewrite !bodies_app, !bodies_calls|]; reflexivity.
Qed.
Lemma bodies_suites : forall hs rs l, bodies (flat_map (suite_block hs rs) l) = all_ran l.
Proof.
  intros hs rs l. induction l as [|a l IH]; [reflexivity|]. cbn [flat_map]. rewrite bodies_app, IH. unfold all_ran. cbn [flat_map]. f_equal. unfold suite_block.
  rewrite !bodies_app, !bodies_calls, !bodies_tell, bodies_cases. cbn. rewrite app_nil_r. reflexivity.
Qed.
Lemma bodies_frame : forall p o l, bodies (frame p o l) = all_ran l.
Proof. intros p o l. unfold frame. rewrite !bodies_app, !bodies_calls, !bodies_tell, bodies_collect, bodies_suites. cbn. rewrite app_nil_r. reflexivity. Qed.
Lemma bodies_ok : forall p o body order r t, whole p o body order = Some (r, t) -> bodies t = executed (rev (r_log r)).
Proof. intros p o body order r t W. destruct (whole_shape p o body order) as (l & E & _ & R). rewrite W in E. injection E as -> ->. rewrite bodies_frame. exact R. Qed.

(** * around a body *)
Section Around.
Variables (hs : hook -> list N) (rs : list N).
Definition placed (pre : list event) (n : nat) (c : N) (post : list event) : Prop := exists s pre' post' q,
  pre = pre' ++ tell rs (CaseStart s c) ++ map (Call CaseSetup) (hs CaseSetup) /\ post = map (Call CaseCleanup) (hs CaseCleanup) ++ tell rs (CaseEnd s c) ++ post' /\ filter of_suite pre = q ++ [Open s].
Definition good (t : list event) : Prop := forall pre n c post, t = pre ++ Body n c :: post -> placed pre n c post.
Lemma split_app : forall (a b pre : list event) e post, a ++ b = pre ++ e :: post -> (exists m, a = pre ++ e :: m /\ post = m ++ b) \/ (exists m, pre = a ++ m /\ b = m ++ e :: post).
Proof.
  intros a. induction a as [|x a IH]; intros b pre e post H; [right; exists pre; split; [reflexivity|exact H]|].
  destruct pre as [|y pre]; cbn in H; injection H as -> H.
  - left. exists a. split; [reflexivity|symmetry; exact H].
  - destruct (IH _ _ _ _ H) as [(m & -> & ->)|(m & -> & ->)]; [left; exists m; split; reflexivity|right; exists m; split; reflexivity].
Qed.
Lemma good_app : forall a b, good a -> good b -> good (a ++ b).
Proof.
  intros a b Ha Hb pre n c post H. apply split_app in H. destruct H as [(m & E & ->)|(m & -> & E)].
  - destruct (Ha _ _ _ _ E) as (s & p1 & p2 & q & -> & -> & F). exists s, p1, (p2 ++ b), q. repeat split; [|exact F]. rewrite <- !app_assoc. reflexivity.
  - destruct (Hb _ _ _ _ E) as (s & p1 & p2 & q & -> & -> & F). exists s, (a ++ p1), p2, (filter of_suite a ++ q). repeat split; [rewrite <- !app_assoc; reflexivity|].
    rewrite filter_app, F, app_assoc. reflexivity.
Qed.
Lemma good_none : forall t, bodies t = [] -> good t.
Proof. intros t H pre n c post ->. rewrite bodies_app in H. destruct (bodies pre); discriminate. Qed.
Lemma of_suite_tell : forall n, filter of_suite (tell rs n) = [].
Proof. intro n. unfold tell. induction rs as [|r l IH]; [reflexivity|exact IH]. Qed.
Lemma of_suite_calls : forall h, h = CaseSetup \/ h = CaseCleanup \/ h = GlobalSetup \/ h = GlobalCleanup -> filter of_suite (calls hs h) = [].
Proof. intros h H. unfold calls. induction (hs h) as [|r l IH]; [reflexivity|]. cbn. destruct H as [->|[->|[->| ->]]]; exact IH. Qed.
Lemma of_suite_cases : forall s l, filter of_suite (flat_map (case_block hs rs s) l) = [].
Proof.
  intros s l. induction l as [|[[n c] b] l IH]; [reflexivity|]. cbn [flat_map]. rewrite filter_app, IH, app_nil_r. unfold case_block. rewrite !filter_app, !of_suite_tell.
  destruct b; [rewrite !filter_app, !of_suite_calls by intuition|]; reflexivity.
Qed.
Lemma case_placed : forall s i pre n c post, case_block hs rs s i = pre ++ Body n c :: post -> exists pre' post',
  pre = pre' ++ tell rs (CaseStart s c) ++ map (Call CaseSetup) (hs CaseSetup) /\ post = map (Call CaseCleanup) (hs CaseCleanup) ++ tell rs (CaseEnd s c) ++ post'.
Proof.
  intros s [[m d] b] pre n c post H. unfold case_block in H. assert (N : forall t, bodies t = [] -> forall x y, t = x ++ Body n c :: y -> False).
  { intros t Ht x y ->. rewrite bodies_app in Ht. destruct (bodies x); discriminate. }
  destruct b.
  - rewrite <- !app_assoc in H. apply split_app in H. destruct H as [(k & E & _)|(k & -> & H)]; [exfalso; revert E; apply N; apply bodies_tell|].
    apply split_app in H. destruct H as [(k2 & E & _)|(k2 & -> & H)]; [exfalso; revert E; apply N; apply bodies_calls|].
    destruct k2 as [|e k2]; cbn in H.
    + injection H as -> -> <-. exists [], []. rewrite !app_nil_r. split; reflexivity.
    + injection H as <- H. exfalso. assert (B : bodies (calls hs CaseCleanup ++ tell rs (CaseEnd s d)) = []) by (rewrite bodies_app, bodies_calls, bodies_tell; reflexivity). exact (N _ B _ _ H).
  - exfalso. cbn in H. assert (B : bodies (tell rs (CaseStart s d) ++ tell rs (CaseEnd s d)) = []) by (rewrite bodies_app, !bodies_tell; reflexivity). exact (N _ B _ _ H).
Qed.
Lemma cases_placed : forall s l pre n c post, flat_map (case_block hs rs s) l = pre ++ Body n c :: post -> exists pre' post',
  pre = pre' ++ tell rs (CaseStart s c) ++ map (Call CaseSetup) (hs CaseSetup) /\ post = map (Call CaseCleanup) (hs CaseCleanup) ++ tell rs (CaseEnd s c) ++ post'.
Proof.
  intros s l. induction l as [|i l IH]; intros pre n c post H; [destruct pre; discriminate|]. cbn [flat_map] in H. apply split_app in H. destruct H as [(m & E & ->)|(m & -> & E)].
  - apply case_placed in E. destruct E as (p1 & p2 & -> & ->). exists p1, (p2 ++ flat_map (case_block hs rs s) l). rewrite <- !app_assoc. split; reflexivity.
  - apply IH in E. destruct E as (p1 & p2 & -> & ->). exists (case_block hs rs s i ++ p1), p2. rewrite <- !app_assoc. split; reflexivity.
Qed.
Lemma suite_good : forall l, good (suite_block hs rs l).
Proof.
  intros l pre n c post H. unfold suite_block in H.
  assert (N : forall t, bodies t = [] -> forall x y, t = x ++ Body n c :: y -> False).
  { intros t Ht x y ->. rewrite bodies_app in Ht. destruct (bodies x); discriminate. }
  apply split_app in H. destruct H as [(k & E & _)|(k & -> & H)]; [exfalso; revert E; apply N; apply bodies_tell|].
  apply split_app in H. destruct H as [(k2 & E & _)|(k2 & -> & H)]; [exfalso; revert E; apply N; apply bodies_calls|].
  destruct k2 as [|e k2]; [discriminate|]. cbn [app] in H. injection H as <- H.
  apply split_app in H. destruct H as [(k3 & E & ->)|(k3 & -> & H)].
  - pose proof (of_suite_cases (fst l) (snd l)) as OS. rewrite E, filter_app in OS. apply app_eq_nil in OS. destruct OS as [OS _].
    apply cases_placed in E. destruct E as (p1 & p2 & -> & ->).
    exists (fst l), (tell rs (SuiteStart (fst l)) ++ calls hs SuiteSetup ++ Open (fst l) :: p1), (p2 ++ [Close (fst l)] ++ calls hs SuiteCleanup ++ tell rs (SuiteEnd (fst l))), (filter of_suite (calls hs SuiteSetup)).
    rewrite <- !app_assoc. cbn [app]. split; [reflexivity|]. split; [reflexivity|]. rewrite filter_app, of_suite_tell. rewrite filter_app. cbn [filter of_suite]. rewrite OS. reflexivity.
  - exfalso. assert (B : bodies ([Close (fst l)] ++ calls hs SuiteCleanup ++ tell rs (SuiteEnd (fst l))) = []) by (rewrite !bodies_app, bodies_calls, bodies_tell; reflexivity). exact (N _ B _ _ H).
Qed.
Lemma suites_good : forall l, good (flat_map (suite_block hs rs) l).
Proof. intro l. induction l as [|a l IH]; [intros [|? ?] ? ? ? H; discriminate|]. cbn [flat_map]. apply good_app; [apply suite_good|exact IH]. Qed.
End Around.
Lemma around : forall p o body order r t pre n c post, whole p o body order = Some (r, t) -> t = pre ++ Body n c :: post -> exists s pre' post' q,
  pre = pre' ++ map (fun x => Tell x (CaseStart s c)) (firstn 7 (wanted p o)) ++ map (Call CaseSetup) (firstn 1023 (p_hooks p CaseSetup)) /\
  post = map (Call CaseCleanup) (firstn 1023 (p_hooks p CaseCleanup)) ++ map (fun x => Tell x (CaseEnd s c)) (firstn 7 (wanted p o)) ++ post' /\
  filter of_suite pre = q ++ [Open s].
Proof.
  intros p o body order r t pre n c post W. destruct (whole_shape p o body order) as (l & E & _). rewrite W in E. injection E as _ ->.
  assert (G : good (hooks_kept p) (firstn 7 (wanted p o)) (frame p o l)).
  { unfold frame. apply good_app; [apply good_none; apply bodies_calls|]. apply good_app; [apply good_none; apply bodies_collect|]. apply good_app; [apply good_none; apply bodies_tell|].
    apply good_app; [apply suites_good|]. apply good_app; [apply good_none; apply bodies_tell|apply good_none; apply bodies_calls]. }
  intro H. destruct (G _ _ _ _ H) as (s & p1 & p2 & q & A & B & C). exists s, p1, p2, q. split; [exact A|]. split; [exact B|exact C].
Qed.

(** * number of calls *)
Definition same (h h' : hook) : bool := match h, h' with GlobalSetup, GlobalSetup | GlobalCleanup, GlobalCleanup | SuiteSetup, SuiteSetup | SuiteCleanup, SuiteCleanup | CaseSetup, CaseSetup | CaseCleanup, CaseCleanup => true | _, _ => false end.
Lemma called_app : forall h f a b, called h f (a ++ b) = (called h f a + called h f b)%nat.
Proof. intros. unfold called. rewrite filter_app, app_length. reflexivity. Qed.
Lemma called_tell : forall h f rs n, called h f (tell rs n) = 0%nat.
Proof. intros h f rs n. unfold called, tell. induction rs as [|r rs IH]; [reflexivity|exact IH]. Qed.
Lemma called_calls : forall h f hs h', called h f (calls hs h') = if same h h' then count_occ N.eq_dec (hs h') f else 0%nat.
Proof.
  intros h f hs h'. unfold called, calls. induction (hs h') as [|x l IH]; [destruct h, h'; reflexivity|]. cbn [map filter count_occ].
  destruct (N.eqb_spec x f) as [->|D]; [destruct (N.eq_dec f f) as [_|D]; [|contradiction]|destruct (N.eq_dec x f) as [->|_]; [contradiction|]];
  destruct h, h'; cbn [andb length same] in *; rewrite IH; reflexivity.
Qed.
Lemma called_cases : forall h f hs rs s l, called h f (flat_map (case_block hs rs s) l) = (length (ran l) * ((if same h CaseSetup then count_occ N.eq_dec (hs CaseSetup) f else 0) + (if same h CaseCleanup then count_occ N.eq_dec (hs CaseCleanup) f else 0)))%nat.
Proof.
  intros h f hs rs s l. induction l as [|[[n c] b] l IH]; [reflexivity|]. cbn [flat_map]. rewrite called_app, IH. unfold case_block. rewrite !called_app, !called_tell. unfold ran. cbn [filter snd].
  destruct b; [rewrite !called_app, !called_calls; change (called h f [Body n c]) with 0%nat; cbn [map length]|change (called h f []) with 0%nat]; lia.
Qed.
Lemma called_suites : forall h f hs rs l, called h f (flat_map (suite_block hs rs) l) =
  (length (all_ran l) * ((if same h CaseSetup then count_occ N.eq_dec (hs CaseSetup) f else 0) + (if same h CaseCleanup then count_occ N.eq_dec (hs CaseCleanup) f else 0)) +
   length l * ((if same h SuiteSetup then count_occ N.eq_dec (hs SuiteSetup) f else 0) + (if same h SuiteCleanup then count_occ N.eq_dec (hs SuiteCleanup) f else 0)))%nat.
Proof.
  intros h f hs rs l. induction l as [|a l IH]; [reflexivity|]. cbn [flat_map]. rewrite called_app, IH. unfold suite_block, all_ran. cbn [flat_map length]. rewrite app_length, !called_app, !called_tell, !called_calls, called_cases.
  change (called h f [Open (fst a)]) with 0%nat. change (called h f [Close (fst a)]) with 0%nat. lia.
Qed.
Lemma called_collect : forall h f hs l, called h f (collect hs l) = (length l * ((if same h SuiteSetup then count_occ N.eq_dec (hs SuiteSetup) f else 0) + (if same h SuiteCleanup then count_occ N.eq_dec (hs SuiteCleanup) f else 0)))%nat.
Proof.
  intros h f hs l. unfold collect. induction l as [|s l IH]; [reflexivity|]. cbn [flat_map]. rewrite !called_app, IH, !called_calls. change (called h f [Open s; Enumerate s; Close s]) with 0%nat. cbn [length]. lia.
Qed.
Lemma fits_length : forall l g, fits l g -> length l = length g.
Proof. intros l g F. induction F; [reflexivity|]. cbn. rewrite IHF. reflexivity. Qed.
Lemma counts_ok : forall p o body order r t f, whole p o body order = Some (r, t) ->
  let times h := count_occ N.eq_dec (firstn 1023 (p_hooks p h)) f in let steps := (length (p_suites p) + length (turns o order))%nat in let bodies := length (executed (r_log r)) in
  called GlobalSetup f t = times GlobalSetup /\ called GlobalCleanup f t = times GlobalCleanup /\ called SuiteSetup f t = (steps * times SuiteSetup)%nat /\ called SuiteCleanup f t = (steps * times SuiteCleanup)%nat /\
  called CaseSetup f t = (bodies * times CaseSetup)%nat /\ called CaseCleanup f t = (bodies * times CaseCleanup)%nat.
Proof.
  intros p o body order r t f W. cbv zeta. destruct (whole_shape p o body order) as (l & E & F & R). rewrite W in E. injection E as -> ->. apply fits_length in F. rewrite <- F.
  replace (length (executed (r_log (fst (run o body (fun n => map snd (order n))))))) with (length (all_ran l)).
  - unfold frame. rewrite !called_app, !called_tell, !called_calls, !called_collect, !called_suites. cbn [same]. change (fun h => firstn 1023 (p_hooks p h)) with (hooks_kept p). unfold hooks_kept. repeat split; lia.
  - rewrite R. unfold executed. rewrite !map_length. clear. generalize (r_log (fst (run o body (fun n => map snd (order n))))). intro l. induction l as [|v l IH]; [reflexivity|].
    cbn [rev filter]. rewrite filter_app, app_length, IH. cbn [filter]. destruct (v_executed v); cbn [length]; lia.
Qed.

(** * suites *)
Lemma of_suite_all : forall hs h, h = SuiteSetup \/ h = SuiteCleanup -> filter of_suite (calls hs h) = map (Call h) (hs h).
Proof. intros hs h H. unfold calls. induction (hs h) as [|x l IH]; [reflexivity|]. cbn. destruct H as [->| ->]; cbn; rewrite IH; reflexivity. Qed.
Lemma suites_ok : forall p o body order r t, whole p o body order = Some (r, t) ->
  let setups := map (Call SuiteSetup) (firstn 1023 (p_hooks p SuiteSetup)) in let cleanups := map (Call SuiteCleanup) (firstn 1023 (p_hooks p SuiteCleanup)) in
  filter of_suite t = flat_map (fun s => setups ++ [Open s; Enumerate s; Close s] ++ cleanups) (p_suites p) ++ flat_map (fun s => setups ++ [Open (fst s); Close (fst s)] ++ cleanups) (turns o order).
Proof.
  intros p o body order r t W. cbv zeta. destruct (whole_shape p o body order) as (l & E & F & _). rewrite W in E. injection E as _ ->. unfold frame.
  rewrite !filter_app, !of_suite_tell, !of_suite_calls by intuition. cbn [app]. rewrite app_nil_r. f_equal.
  - unfold collect. induction (p_suites p) as [|s ss IH]; [reflexivity|]. cbn [flat_map]. rewrite filter_app, IH, !filter_app, !of_suite_all by intuition. reflexivity.
  - clear W. induction F as [|a b l g [E _] F IH]; [reflexivity|]. cbn [flat_map]. rewrite filter_app, IH. f_equal. unfold suite_block. rewrite !filter_app, !of_suite_tell, of_suite_cases, !of_suite_all by intuition. rewrite E. cbn [filter of_suite app]. rewrite app_nil_r. reflexivity.
Qed.

(** * the run as a whole *)
Lemma of_run_calls : forall hs h, h <> GlobalSetup -> h <> GlobalCleanup -> filter of_run (calls hs h) = [].
Proof. intros hs h A B. unfold calls. induction (hs h) as [|x l IH]; [reflexivity|]. destruct h; try contradiction; exact IH. Qed.
Lemma of_run_tell : forall rs n, filter of_run (tell rs n) = [].
Proof. intros rs n. unfold tell. induction rs as [|x l IH]; [reflexivity|exact IH]. Qed.
Lemma global_ok : forall p o body order r t, whole p o body order = Some (r, t) -> exists mid,
  t = map (Call GlobalSetup) (firstn 1023 (p_hooks p GlobalSetup)) ++ mid ++ map (Call GlobalCleanup) (firstn 1023 (p_hooks p GlobalCleanup)) /\ filter of_run mid = [].
Proof.
  intros p o body order r t W. destruct (whole_shape p o body order) as (l & E & _ & _). rewrite W in E. injection E as _ ->. unfold frame.
  exists (collect (hooks_kept p) (p_suites p) ++ tell (firstn 7 (wanted p o)) RunnerStart ++ flat_map (suite_block (hooks_kept p) (firstn 7 (wanted p o))) l ++ tell (firstn 7 (wanted p o)) RunnerEnd).
  split; [rewrite <- !app_assoc; reflexivity|]. rewrite !filter_app, !of_run_tell. cbn [app]. rewrite app_nil_r.
  assert (A : filter of_run (collect (hooks_kept p) (p_suites p)) = []).
  { unfold collect. induction (p_suites p) as [|s ss IH]; [reflexivity|]. cbn [flat_map]. rewrite filter_app, IH, !filter_app, !of_run_calls by discriminate. reflexivity. }
  rewrite A. cbn [app]. clear W. induction l as [|a l IH]; [reflexivity|]. cbn [flat_map]. rewrite filter_app, IH, app_nil_r. unfold suite_block. rewrite !filter_app, !of_run_tell, !of_run_calls by discriminate. cbn [filter of_run app]. rewrite app_nil_r.
  induction (snd a) as [|[[n c] b] i IH2]; [reflexivity|]. cbn [flat_map]. rewrite filter_app, IH2, app_nil_r. unfold case_block. rewrite !filter_app, !of_run_tell. destruct b; [rewrite !filter_app, !of_run_calls by discriminate|]; reflexivity.
Qed.

(** * suites and reports *)
Lemma open_block : forall hs rs l pre s post, suite_block hs rs l = pre ++ Open s :: post -> exists post', s = fst l /\ pre = tell rs (SuiteStart s) ++ calls hs SuiteSetup /\
  post = post' ++ Close s :: calls hs SuiteCleanup ++ tell rs (SuiteEnd s) /\ filter of_suite post' = [].
Proof.
  intros hs rs l pre s post H. unfold suite_block in H.
  assert (N : forall t, ~ In (Open s) t -> forall x y, t = x ++ Open s :: y -> False) by (intros t Ht x y ->; apply Ht; apply in_or_app; right; left; reflexivity).
  assert (NT : forall n, ~ In (Open s) (tell rs n)) by (intros n Hi; apply in_map_iff in Hi; destruct Hi as (? & D & _); discriminate).
  assert (NC : forall h, ~ In (Open s) (calls hs h)) by (intros h Hi; apply in_map_iff in Hi; destruct Hi as (? & D & _); discriminate).
  apply split_app in H. destruct H as [(k & E & _)|(k & -> & H)]; [exfalso; revert E; apply N; apply NT|].
  apply split_app in H. destruct H as [(k2 & E & _)|(k2 & -> & H)]; [exfalso; revert E; apply N; apply NC|].
  destruct k2 as [|e k2]; cbn [app] in H.
  - injection H as <- <-. exists (flat_map (case_block hs rs (fst l)) (snd l)). split; [reflexivity|]. split; [rewrite app_nil_r; reflexivity|]. split; [reflexivity|apply of_suite_cases].
  - injection H as <- H. exfalso. revert H. apply N. rewrite in_app_iff. intros [Hi|[Hi|Hi]].
    + pose proof (of_suite_cases hs rs (fst l) (snd l)) as OS. assert (X : In (Open s) (filter of_suite (flat_map (case_block hs rs (fst l)) (snd l)))) by (apply filter_In; split; [exact Hi|reflexivity]). rewrite OS in X. exact X.
    + discriminate.
    + apply in_app_iff in Hi. destruct Hi as [Hi|Hi]; [exact (NC _ Hi)|exact (NT _ Hi)].
Qed.
Lemma open_blocks : forall hs rs l pre s post, flat_map (suite_block hs rs) l = pre ++ Open s :: post -> exists pre' post' post'', pre = pre' ++ tell rs (SuiteStart s) ++ calls hs SuiteSetup /\
  post = post' ++ Close s :: calls hs SuiteCleanup ++ tell rs (SuiteEnd s) ++ post'' /\ filter of_suite post' = [].
Proof.
  intros hs rs l. induction l as [|a l IH]; intros pre s post H; [destruct pre; discriminate|]. cbn [flat_map] in H. apply split_app in H. destruct H as [(m & E & ->)|(m & -> & E)].
  - apply open_block in E. destruct E as (p' & -> & -> & -> & F). exists [], p', (flat_map (suite_block hs rs) l). split; [reflexivity|]. split; [|exact F]. rewrite <- !app_assoc. cbn [app]. rewrite <- !app_assoc. reflexivity.
  - apply IH in E. destruct E as (p1 & p2 & p3 & -> & -> & F). exists (suite_block hs rs a ++ p1), p2, p3. split; [rewrite <- !app_assoc; reflexivity|]. split; [reflexivity|exact F].
Qed.
Lemma opened : forall p o body order r t pre s post, whole p o body order = Some (r, t) -> t = pre ++ Open s :: post ->
  let setups := map (Call SuiteSetup) (firstn 1023 (p_hooks p SuiteSetup)) in let cleanups := map (Call SuiteCleanup) (firstn 1023 (p_hooks p SuiteCleanup)) in
  (exists pre' post', pre = pre' ++ setups /\ post = [Enumerate s; Close s] ++ cleanups ++ post' /\ (forall x, heard x pre' = []) /\ bodies pre' = []) \/
  (exists pre' post' post'', pre = pre' ++ map (fun x => Tell x (SuiteStart s)) (firstn 7 (wanted p o)) ++ setups /\
     post = post' ++ Close s :: cleanups ++ map (fun x => Tell x (SuiteEnd s)) (firstn 7 (wanted p o)) ++ post'' /\ filter of_suite post' = []).
Proof.
  intros p o body order r t pre s post W H. cbv zeta. destruct (whole_shape p o body order) as (l & E & _ & _). rewrite W in E. injection E as _ ->. unfold frame in H.
  assert (N : forall t, ~ In (Open s) t -> forall x y, t = x ++ Open s :: y -> False) by (intros t Ht x y ->; apply Ht; apply in_or_app; right; left; reflexivity).
  assert (NT : forall n, ~ In (Open s) (tell (firstn 7 (wanted p o)) n)) by (intros n Hi; apply in_map_iff in Hi; destruct Hi as (? & D & _); discriminate).
  assert (NC : forall h, ~ In (Open s) (calls (hooks_kept p) h)) by (intros h Hi; apply in_map_iff in Hi; destruct Hi as (? & D & _); discriminate).
  apply split_app in H. destruct H as [(k & E & _)|(k & -> & H)]; [exfalso; revert E; apply N; apply NC|].
  apply split_app in H. destruct H as [(k2 & E & ->)|(k2 & -> & H)].
  - left. assert (X : exists pre' post', k = pre' ++ calls (hooks_kept p) SuiteSetup /\ k2 = [Enumerate s; Close s] ++ calls (hooks_kept p) SuiteCleanup ++ post' /\ (forall x, heard x pre' = []) /\ bodies pre' = []).
    { clear - E N NC. revert k E. induction (p_suites p) as [|u ss IH]; intros k E; [destruct k; discriminate|]. unfold collect in E. cbn [flat_map] in E. fold (collect (hooks_kept p) ss) in E.
      apply split_app in E. destruct E as [(m & E & ->)|(m & -> & E)].
      - apply split_app in E. destruct E as [(j & E & _)|(j & -> & E)]; [exfalso; revert E; apply N; apply NC|].
        destruct j as [|e j]; cbn [app] in E.
        + injection E as -> <-. exists [], (collect (hooks_kept p) ss). split; [rewrite app_nil_r; reflexivity|]. split; [cbn [app]; rewrite <- ?app_assoc; reflexivity|]. split; reflexivity.
        + injection E as <- E. exfalso. revert E. apply N. intros [Hi|[Hi|Hi]]; [discriminate|discriminate|exact (NC _ Hi)].
      - destruct (IH _ E) as (p1 & p2 & -> & -> & A & B). exists ((calls (hooks_kept p) SuiteSetup ++ [Open u; Enumerate u; Close u] ++ calls (hooks_kept p) SuiteCleanup) ++ p1), p2.
        split; [rewrite <- !app_assoc; reflexivity|]. split; [reflexivity|]. split; [intro x; rewrite !heard_app, !heard_calls, A; reflexivity|rewrite !bodies_app, !bodies_calls, B; reflexivity]. }
    destruct X as (p1 & p2 & -> & -> & A & B). eexists (calls (hooks_kept p) GlobalSetup ++ p1), _. split; [rewrite <- app_assoc; reflexivity|]. split; [cbn [app]; rewrite <- !app_assoc; reflexivity|].
    split; [intro x; rewrite heard_app, heard_calls, A; reflexivity|rewrite bodies_app, bodies_calls, B; reflexivity].
  - right. apply split_app in H. destruct H as [(k3 & E & _)|(k3 & -> & H)]; [exfalso; revert E; apply N; apply NT|].
    apply split_app in H. destruct H as [(k4 & E & ->)|(k4 & -> & H)].
    + apply open_blocks in E. destruct E as (p1 & p2 & p3 & -> & -> & F). eexists (calls (hooks_kept p) GlobalSetup ++ collect (hooks_kept p) (p_suites p) ++ tell (firstn 7 (wanted p o)) RunnerStart ++ p1), p2, _.
      split; [rewrite <- !app_assoc; reflexivity|]. split; [|exact F]. rewrite <- !app_assoc. cbn [app]. rewrite <- !app_assoc. reflexivity.
    + exfalso. revert H. apply N. rewrite in_app_iff. intros [Hi|Hi]; [exact (NT _ Hi)|exact (NC _ Hi)].
Qed.
