From Coq Require Import List NArith Bool Arith Lia.
From Verif Require Import Base OptionModel OptionSpec OptionProofs OptionProofs2 UsageModel UsageSpec UsageProofs.
Import ListNotations.
Local Open Scope N_scope.

Definition the_letters : bytes := Eval vm_compute in flat_map (fun r => fst (fst r)) the_rows.
Lemma listed_are : forall v d r rest p, table v d r rest p -> listed p = the_letters.
Proof. intros. unfold listed. erewrite table_rows_are by eassumption. vm_compute. reflexivity. Qed.
Definition the_row (c : byte) := match find (fun r => existsb (N.eqb c) (fst (fst r))) the_rows with Some r => r | None => ([], [], []) end.
Lemma row_is : forall v d r rest p, table v d r rest p -> forall c, row p c = the_row c.
Proof. intros. unfold row. erewrite table_rows_are by eassumption. reflexivity. Qed.
Lemma unlisted : forall c, ~ In c the_letters -> forall n, In n the_letters -> (c =? n) = false.
Proof. intros c H n I. apply N.eqb_neq. intros ->. contradiction. Qed.
Ltac each_letter H := let I := fresh in pose proof H as I; unfold the_letters in I; cbn [In] in I; repeat (destruct I as [<-|I]); [..|contradiction].
Lemma step_unlisted : forall c, ~ In c the_letters -> forall path j rest s, step path c j rest s = (Done s, j, rest).
Proof. intros c H path j rest s. unfold step. rewrite !(unlisted c H) by (unfold the_letters; cbn [In]; tauto). reflexivity. Qed.
Definition seen (x : outcome * bytes * list bytes) : option (list value) := match fst (fst x) with Done s => Some (map s (map fst initial)) | _ => None end.
Lemma means : forall c, In c the_letters <-> exists path j rest s, step path c j rest s <> (Done s, j, rest).
Proof.
  intros c. split.
  - intros H. exists [], [], [str "x"], defaults. intros E. apply (f_equal seen) in E. revert E. each_letter H; vm_compute; discriminate.
  - intros (path & j & rest & s & N). destruct (in_dec N.eq_dec c the_letters) as [I|I]; auto. exfalso. apply N, step_unlisted, I.
Qed.
Lemma letters_ok : forall v d r rest p, table v d r rest p -> forall c, In c (listed p) <-> exists path j more s, step path c j more s <> (Done s, j, more).
Proof. intros v d r rest p T c. erewrite listed_are by eassumption. apply means. Qed.
Lemma once : forall v d r rest p, table v d r rest p -> NoDup (listed p).
Proof. intros v d r rest p T. erewrite listed_are by eassumption. unfold the_letters. repeat (constructor; [cbn [In]; intros F; repeat destruct F as [F|F]; try discriminate; contradiction|]). constructor. Qed.
Lemma arguments_ok : forall v d r rest p, table v d r rest p -> forall c, In c (listed p) -> c <> 104 -> c <> 63 ->
  (takes p c = false <-> forall path j more s, snd (fst (step path c j more s)) = j /\ snd (step path c j more s) = more).
Proof.
  intros v d r rest p T c H N1 N2. erewrite listed_are in H by eassumption. unfold takes. erewrite row_is by eassumption.
  each_letter H; try congruence; (split; intros G; [try (vm_compute in G; discriminate); intros; split; reflexivity|try (vm_compute; reflexivity)]);
    exfalso; specialize (G [] [] [str "1"] defaults); destruct G as [_ G]; vm_compute in G; discriminate.
Qed.
Lemma defaults_ok : forall v d r rest p, table v d r rest p -> forall c n, given p c = Some n ->
  forall path more s, dashed more -> exists k, step path c [] more s = (Done (set s k (VN n)), [], more).
Proof.
  intros v d r rest p T c n G path more s D. unfold given in G. erewrite row_is in G by eassumption.
  destruct (in_dec N.eq_dec c the_letters) as [I|I].
  - each_letter I; try (vm_compute in G; discriminate); vm_compute in G; injection G as <-; eexists; unfold step; cbn [N.eqb Pos.eqb]; apply number_none; exact D.
  - unfold the_row, the_rows in G. cbn [find existsb fst snd] in G. rewrite !(unlisted c I) in G by (unfold the_letters; cbn [In]; tauto). discriminate.
Qed.
Lemma lists_ok : forall v d r rest p, table v d r rest p -> forall t, taken list_word t <-> exists n, abbrev (types p 108) t n.
Proof.
  intros v d r rest p T t. replace (types p 108) with (map fst list_bits) by (unfold types; erewrite row_is by eassumption; vm_compute; reflexivity).
  split.
  - intros H. destruct (H defaults) as (s' & E). unfold list_word in E. destruct (candidate t _) eqn:C; try discriminate. exists s. apply candidate_found; [cbn; lia|exact C].
  - intros (n & A) s. eexists. apply list_word_ok, A.
Qed.
Lemma quotes_ok : forall v d r rest p, table v d r rest p -> forall t, taken quote_word t <-> exists n, abbrev (types p 83) t n.
Proof.
  intros v d r rest p T t. replace (types p 83) with (map fst quotes) by (unfold types; erewrite row_is by eassumption; vm_compute; reflexivity).
  split.
  - intros H. destruct (H defaults) as (s' & E). unfold quote_word in E. destruct (candidate t _) eqn:C; try discriminate. exists s. apply candidate_found; [cbn; lia|exact C].
  - intros (n & A) s. eexists. apply quote_word_ok, A.
Qed.
Lemma warnings_are : forall v d r rest p, help v d r (str "W" :: rest) = Some p -> explained p = explained (concat warnings_rows).
Proof. intros v d r rest p H. rewrite help_warnings in H. revert H. generalize (concat warnings_rows). intros b H. injection H as <-. reflexivity. Qed.
Lemma warning_words : forall v d r rest p, help v d r (str "W" :: rest) = Some p ->
  forall t, taken warning_word t <-> exists n, abbrev (filter (fun w => negb (bytes_eqb w (str "double_free"))) (explained p)) t n.
Proof.
  intros v d r rest p H t. rewrite (warnings_are v d r rest p H). clear H.
  replace (filter _ (explained (concat warnings_rows))) with (map fst warning_keys) by (vm_compute; reflexivity).
  split.
  - intros H. destruct (H defaults) as (s' & E). unfold warning_word in E. destruct (candidate t _) eqn:C; try discriminate. exists s. apply candidate_found; [cbn; lia|exact C].
  - intros (n & A) s. eexists. apply warning_word_ok, A.
Qed.
Lemma fields_are : forall v d r t rest p, In t [str "i"; str "e"] -> help v d r (t :: rest) = Some p -> before_equals p = map fst fields.
Proof.
  intros v d r t rest p I H. rewrite help_fields in H by exact I. transitivity (before_equals (concat patterns_rows)); [|vm_compute; reflexivity].
  revert H. generalize (concat patterns_rows). intros b H. injection H as <-. reflexivity.
Qed.
Lemma fields_ok : forall v d r t rest p, In t [str "i"; str "e"] -> help v d r (t :: rest) = Some p ->
  forall (incl : bool) a x, ~ In 61 a -> (length a < 64)%nat ->
  (taken (pattern (if incl then include_keys else exclude_keys)) (a ++ 61 :: x) <-> exists n, abbrev (before_equals p) a n).
Proof.
  intros v d r t rest p I H incl a x N L. rewrite (fields_are v d r t rest p I H). clear H. split.
  - intros H. destruct (H defaults) as (s' & E). unfold pattern in E. change (a ++ 61 :: x) with (a ++ [61] ++ x) in E. rewrite split_eq_some in E by exact N.
    assert (G : (64 <=? length a)%nat = false) by (apply Nat.leb_gt; exact L). rewrite G in E.
    destruct (candidate a _) eqn:C; [|destruct incl; discriminate..]. exists s. apply candidate_found; [cbn; lia|exact C].
  - intros (n & A) s. eexists. change (a ++ 61 :: x) with (a ++ [61] ++ x). apply (pattern_ok incl (look Any fields n, x)). apply (PTField _ a n x); auto.
Qed.
Lemma plain_pattern : forall (incl : bool) t, ~ In 61 t -> taken (pattern (if incl then include_keys else exclude_keys)) t.
Proof. intros incl t N s. eexists. apply (pattern_ok incl (Any, t)). constructor. exact N. Qed.
Lemma alphabet : forall v d r rest p, table v d r rest p ->
  (exists t, In t (slashed p 115) /\ refused shuffle_word t) /\ (exists t, taken shuffle_word t /\ forall w, In w (slashed p 115) -> ~ ci_prefix t w).
Proof.
  intros v d r rest p T. assert (E : slashed p 115 = [str "random"; str "alphabet"; str "reverse"]) by (unfold slashed; erewrite row_is by eassumption; vm_compute; reflexivity). rewrite E. split.
  - exists (str "alphabet"). split; [right; left; reflexivity|]. intros s. vm_compute. reflexivity.
  - exists (str "name"). split.
    + intros s. eexists. apply (shuffle_word_ok _ (str "name")). apply candidate_found; [cbn; lia|vm_compute; reflexivity].
    + intros w I. apply begins_no. destruct I as [<-|[<-|[<-|[]]]]; vm_compute; reflexivity.
Qed.
Lemma fold_max : forall v d r rest p, table v d r rest p ->
  snd (fst (row p 70)) = str "  [n=max]  " /\ In (str "3:single") (cut 32 (snd (row p 70))) /\ forall path s, step path 70 [] [] s = (Done (set s Kfold_json (VN 0)), [], []).
Proof.
  intros v d r rest p T. erewrite row_is by eassumption. split; [vm_compute; reflexivity|]. split; [|reflexivity].
  vm_compute. tauto.
Qed.
Lemma verbose_max : forall v d r rest p, table v d r rest p ->
  snd (fst (row p 118)) = str "  [n=max]  " /\ forall w n, In w (cut 32 (snd (row p 118))) -> In n (flat_map (cut 47) (removelast (cut 58 w))) -> forallb ten n = true ->
  forall path s more, dashed more -> exists m, number_from 0 n <= m /\ step path 118 [] more s = (Done (set s Kverbose (VN m)), [], more).
Proof.
  intros v d r rest p T. erewrite row_is by eassumption. split; [vm_compute; reflexivity|]. intros w n I J F path s more D. exists 8. split; [|unfold step; cbn [N.eqb Pos.eqb]; apply number_none; exact D].
  assert (A : forallb (fun w => forallb (fun n => negb (forallb ten n) || (number_from 0 n <=? 8)) (flat_map (cut 47) (removelast (cut 58 w)))) (cut 32 (snd (the_row 118))) = true) by (vm_compute; reflexivity).
  rewrite forallb_forall in A. specialize (A w I). rewrite forallb_forall in A. specialize (A n J). rewrite F in A. apply N.leb_le. exact A.
Qed.
Lemma double_free : forall v d r rest p, help v d r (str "W" :: rest) = Some p -> exists t, In t (explained p) /\ refused warning_word t.
Proof.
  intros v d r rest p H. rewrite (warnings_are v d r rest p H). exists (str "double_free"). split; [vm_compute; tauto|]. intros s. vm_compute. reflexivity.
Qed.
