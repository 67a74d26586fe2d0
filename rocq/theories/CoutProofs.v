(** Proofs about blocks that judge output. *)
From Coq Require Import List NArith ZArith Bool Arith Lia.
From Verif Require Import Base StrModel StdioModel StdioSpec StdioProofs StdioProofs2 CoutModel CoutSpec.
Import ListNotations.

Lemma exec_cout : forall normal go_on judge type place body s,
  exec normal go_on (Cout judge type place body) s =
  let s1 := exec_all normal go_on body (call normal (Begin type) s) in if s_left s1 then s1 else judged normal go_on judge place s1.
Proof. reflexivity. Qed.
Lemma exec_cons : forall normal go_on i r s, exec_all normal go_on (i :: r) s = let s1 := exec normal go_on i s in if s_left s1 then s1 else exec_all normal go_on r s1.
Proof. reflexivity. Qed.
Lemma exec_app : forall normal go_on a b s, s_left s = false ->
  exec_all normal go_on (a ++ b) s = let s1 := exec_all normal go_on a s in if s_left s1 then s1 else exec_all normal go_on b s1.
Proof.
  intros normal go_on. induction a as [|i a IH]; intros b s L; [cbn; rewrite L; reflexivity|].
  rewrite <- app_comm_cons, !exec_cons. cbv zeta. destruct (s_left (exec normal go_on i s)) eqn:E; [rewrite E; reflexivity|]. apply IH. exact E.
Qed.

(** what verdicts do to the counters *)
Definition counted_as (go_on : bool) (vs : list (bool * report)) (s s1 : state) : Prop :=
  s_asserts s1 = (s_asserts s + (if go_on then length vs else until vs))%nat /\
  s_fails s1 = s_fails s ++ (if go_on then bad vs else firstn 1 (bad vs)) /\
  s_left s1 = (if go_on then false else match bad vs with [] => false | _ => true end).
Lemma until_all : forall vs, bad vs = [] -> until vs = length vs.
Proof. induction vs as [|[[|] r] vs IH]; intros B; cbn in *; [reflexivity|rewrite IH by exact B; reflexivity|discriminate]. Qed.
Lemma until_app : forall a b, until (a ++ b) = match bad a with [] => (length a + until b)%nat | _ => until a end.
Proof.
  induction a as [|[[|] r] a IH]; intros b; [reflexivity| |reflexivity]. cbn [app until]. rewrite IH. cbn [bad]. unfold bad. cbn [filter fst negb map]. destruct (map snd _); cbn; lia.
Qed.
Lemma bad_app : forall a b, bad (a ++ b) = bad a ++ bad b.
Proof. intros. unfold bad. rewrite filter_app, map_app. reflexivity. Qed.
Lemma counted_nil : forall go_on s, s_left s = false -> counted_as go_on [] s s.
Proof. intros go_on s L. unfold counted_as. destruct go_on; cbn; rewrite ?app_nil_r; repeat split; try lia; auto. Qed.
(** in sequence: the second part only if the first did not leave *)
Lemma counted_app : forall go_on a b s s1 s2, counted_as go_on a s s1 -> (s_left s1 = false -> counted_as go_on b s1 s2) -> (s_left s1 = true -> s2 = s1) -> counted_as go_on (a ++ b) s s2.
Proof.
  intros go_on a b s s1 s2 (A1 & A2 & A3) HB HL. unfold counted_as. rewrite app_length, bad_app, until_app. destruct go_on.
  - destruct (HB A3) as (B1 & B2 & B3). rewrite B1, B2, B3, A1, A2, app_assoc. repeat split; lia.
  - destruct (bad a) as [|r t] eqn:E.
    + destruct (HB A3) as (B1 & B2 & B3). rewrite B1, B2, B3, A1, A2. rewrite (until_all a E). cbn [app firstn]. rewrite app_nil_r. repeat split; lia.
    + rewrite (HL A3), A1, A2, A3. cbn [app firstn]. repeat split.
Qed.
Lemma counted_verdict : forall go_on (ok : bool) r s s1, s_left s = false ->
  s_asserts s1 = (s_asserts s + 1)%nat -> s_fails s1 = s_fails s ++ (if ok then [] else [r]) -> s_left s1 = (if ok then false else negb go_on) -> counted_as go_on [(ok, r)] s s1.
Proof. intros go_on ok r s s1 L A B D. unfold counted_as. rewrite A, B, D. destruct go_on, ok; cbn; repeat split. Qed.
Lemma run_cons : forall normal o l s, fst (run normal (o :: l) s) = fst (run normal l (fst (step normal o s))).
Proof. intros. cbn [run]. destruct (step normal o s) as [s1 r]. cbn [fst]. destruct (run normal l s1). reflexivity. Qed.

(** the inside of a block *)
Lemma body_run : forall normal go_on body, Forall simple body -> forall s, s_left s = false ->
  exists vs, verdicts body vs /\ counted_as go_on vs s (exec_all normal go_on body s) /\
  (s_left (exec_all normal go_on body s) = false -> s_io (exec_all normal go_on body s) = fst (run normal (calls_of body) (s_io s))).
Proof.
  intros normal go_on body H. induction H as [|i body Hi Hb IH]; intros s L.
  - exists []. split; [constructor|]. split; [apply counted_nil; exact L|]. reflexivity.
  - rewrite exec_cons. cbv zeta. destruct i as [o|ok place|]; [| |contradiction].
    + cbn [exec]. replace (s_left (call normal o s)) with false by (symmetry; exact L). destruct (IH (call normal o s) L) as (vs & V & (C1 & C2 & C3) & I1).
      exists vs. split; [constructor; exact V|]. split; [repeat split; assumption|]. intros LL. rewrite (I1 LL). cbn [calls_of]. rewrite run_cons. reflexivity.
    + set (s1 := exec normal go_on (Check ok place) s).
      assert (C : counted_as go_on [(ok, RCheck place)] s s1) by (unfold s1; destruct ok; apply counted_verdict; cbn; rewrite ?app_nil_r; auto).
      assert (IO : s_io s1 = s_io s) by (unfold s1; destruct ok; reflexivity).
      destruct (s_left s1) eqn:E.
      * assert (exists vs, verdicts body vs) as [vs V].
        { destruct (IH s L) as (vs & V & _). exists vs. exact V. }
        exists ((ok, RCheck place) :: vs). split; [constructor; exact V|]. split; [|congruence].
        apply (counted_app go_on [(ok, RCheck place)] vs s s1 s1 C); [congruence|reflexivity].
      * destruct (IH s1 E) as (vs & V & C2 & I2). exists ((ok, RCheck place) :: vs). split; [constructor; exact V|].
        split; [apply (counted_app go_on [(ok, RCheck place)] vs s s1 _ C); [auto|congruence]|].
        intros LL. rewrite (I2 LL), IO. reflexivity.
Qed.
Lemma simple_calls : forall body, Forall simple body -> Forall plain (calls_of body) /\ Forall sound (calls_of body).
Proof. induction 1 as [|i body Hi Hb [P S0]]; [split; constructor|]. destruct i as [o| |]; [|auto|contradiction]. destruct Hi. split; constructor; auto. Qed.
Lemma c_str_end : forall x : bytes, c_str (x ++ [0%N]) = c_str x.
Proof. induction x as [|c x IH]; [reflexivity|]. cbn [app c_str]. destruct (N.eqb c 0); [reflexivity|]. rewrite IH. reflexivity. Qed.

(** a block *)
Lemma block_run : forall normal go_on judge type place body s, Forall simple body -> s_left s = false ->
  exists vs, verdicts [Cout judge type place body] vs /\ counted_as go_on vs s (exec normal go_on (Cout judge type place body) s).
Proof.
  intros normal go_on judge type place body s H L. rewrite exec_cout. cbv zeta. set (s0 := call normal (Begin type) s).
  destruct (simple_calls body H) as [P S0].
  destruct (run_says normal (selects type) (calls_of body) (s_io s0) P S0) as (x & X & B & _). { intro ch. exact (begin_on normal type (s_io s) ch). }
  destruct (body_run normal go_on body H s0 L) as (ws & W & C & IO). set (s1 := exec_all normal go_on body s0) in *.
  exists (ws ++ [(judge (c_str x), RCout place (c_str x))]). split; [econstructor; [exact W|exact X|apply cut_c_str|constructor]|].
  assert (C0 : counted_as go_on ws s s1) by exact C. clear C.
  destruct (s_left s1) eqn:E.
  - eapply counted_app; [exact C0|congruence|reflexivity].
  - eapply counted_app; [exact C0| |congruence]. intros _.
    assert (T : snd (step normal End_ (s_io (count s1))) = Text (c_str x)).
    { cbn [step snd count s_io]. rewrite (IO eq_refl), B. change (buffer (s_io s0)) with (@nil byte). cbn [app]. rewrite c_str_end. reflexivity. }
    unfold judged. cbv zeta. rewrite T. destruct (judge (c_str x)); apply counted_verdict; cbn; rewrite ?app_nil_r; auto.
Qed.
Lemma verdicts_app : forall a b va vb, verdicts a va -> verdicts b vb -> verdicts (a ++ b) (va ++ vb).
Proof.
  intros a b va vb A Hb. induction A; cbn [app]; [exact Hb|constructor; assumption|constructor; assumption|].
  rewrite <- app_assoc. cbn [app]. econstructor; eassumption.
Qed.
Lemma flat_run : forall normal go_on l, Forall flat l -> forall s, s_left s = false -> exists vs, verdicts l vs /\ counted_as go_on vs s (exec_all normal go_on l s).
Proof.
  intros normal go_on l H. induction H as [|i l Hi Hl IH]; intros s L.
  - exists []. split; [constructor|apply counted_nil; exact L].
  - assert (exists vi, verdicts [i] vi /\ counted_as go_on vi s (exec normal go_on i s)) as (vi & Vi & Ci).
    { destruct i as [o|ok place|judge type place body].
      - exists []. split; [repeat constructor|]. cbn [exec]. unfold counted_as. destruct go_on; cbn; rewrite ?app_nil_r; repeat split; auto; lia.
      - exists [(ok, RCheck place)]. split; [repeat constructor|]. cbn [exec]. destruct ok; apply counted_verdict; cbn; rewrite ?app_nil_r; auto.
      - apply block_run; auto. }
    rewrite exec_cons. cbv zeta. destruct (s_left (exec normal go_on i s)) eqn:E.
    + destruct (IH s L) as (vs & V & _). exists (vi ++ vs). split; [apply (verdicts_app [i] l); assumption|]. eapply counted_app; [exact Ci|congruence|reflexivity].
    + destruct (IH _ E) as (vs & V & C). exists (vi ++ vs). split; [apply (verdicts_app [i] l); assumption|]. eapply counted_app; [exact Ci|auto|congruence].
Qed.
(** the calls determine the verdicts *)
Lemma verdicts_det : forall l vs, verdicts l vs -> forall ws, verdicts l ws -> vs = ws.
Proof.
  induction 1 as [|o l vs V IH|ok place l vs V IH|judge type place body l ws vs said text W IHW S0 C V IH]; intros us U; inversion U; subst; auto.
  - f_equal. auto.
  - match goal with H1 : verdicts body ?w, H2 : says_all _ _ ?x, H3 : cut ?x ?t, H4 : verdicts l ?v |- _ =>
      rewrite (IHW _ H1), (IH _ H4); pose proof (says_all_det _ _ _ _ S0 H2); subst said; rewrite (cut_det _ _ C), (cut_det _ _ H3) end. reflexivity.
Qed.
Lemma test_all : forall normal l o, Forall flat l -> exists vs, verdicts l vs /\
  s_asserts (test normal true l o) = length vs /\ s_fails (test normal true l o) = bad vs /\ s_left (test normal true l o) = false.
Proof.
  intros normal l o H. destruct (flat_run normal true l H {| s_io := o; s_asserts := 0; s_fails := []; s_left := false |} eq_refl) as (vs & V & C1 & C2 & C3).
  exists vs. split; [exact V|]. unfold test. rewrite C1, C2, C3. repeat split.
Qed.
Lemma test_first : forall normal l o, Forall flat l -> exists vs, verdicts l vs /\
  s_asserts (test normal false l o) = until vs /\ s_fails (test normal false l o) = firstn 1 (bad vs) /\ s_left (test normal false l o) = (match bad vs with [] => false | _ => true end).
Proof.
  intros normal l o H. destruct (flat_run normal false l H {| s_io := o; s_asserts := 0; s_fails := []; s_left := false |} eq_refl) as (vs & V & C1 & C2 & C3).
  exists vs. split; [exact V|]. unfold test. rewrite C1, C2, C3. repeat split.
Qed.

(** a block inside a block: the outer one is judged by the text of the inner one *)
Lemma do_all : forall normal go_on l s, s_left s = false ->
  exec_all normal go_on (map Do l) s = {| s_io := fst (run normal l (s_io s)); s_asserts := s_asserts s; s_fails := s_fails s; s_left := false |}.
Proof.
  intros normal go_on. induction l as [|o l IH]; intros s L; [destruct s; cbn in *; subst; reflexivity|].
  cbn [map]. rewrite exec_cons. cbv zeta. cbn [exec]. replace (s_left (call normal o s)) with false by (symmetry; exact L).
  rewrite IH by exact L. cbn [call s_io s_asserts s_fails]. rewrite run_cons. reflexivity.
Qed.
Lemma judged_io : forall normal go_on judge place s, s_io (judged normal go_on judge place s) = fst (step normal End_ (s_io s)).
Proof. intros. unfold judged. cbv zeta. destruct (judge _); reflexivity. Qed.
Lemma judged_left : forall normal judge place s, s_left s = false -> s_left (judged normal true judge place s) = false.
Proof. intros. unfold judged. cbv zeta. destruct (judge _); [exact H|reflexivity]. Qed.
Lemma nested : forall normal judge type place a judge1 type1 place1 b c o, Forall plain b -> Forall sound b -> Forall plain c -> Forall sound c ->
  exists said text, says_all (selects type1) b said /\ cut said text /\
  s_fails (test normal true [Cout judge type place (map Do a ++ [Cout judge1 type1 place1 (map Do b)] ++ map Do c)] o) =
  (if judge1 text then [] else [RCout place1 text]) ++ (if judge text then [] else [RCout place text]).
Proof.
  intros normal judge type place a judge1 type1 place1 b c o Pb Sb Pc Sc. unfold test. rewrite exec_cons. cbv zeta. rewrite exec_cout. cbv zeta.
  set (s0 := call normal (Begin type) _). rewrite exec_app by reflexivity. rewrite do_all by reflexivity. cbv zeta. cbn [s_left].
  set (s1 := {| s_io := fst (run normal a (s_io s0)); s_asserts := _; s_fails := _; s_left := false |}). cbn [app]. rewrite exec_cons. cbv zeta.
  rewrite exec_cout. cbv zeta. rewrite do_all by reflexivity. cbn [s_left].
  destruct (run_says normal (selects type1) b (s_io (call normal (Begin type1) s1)) Pb Sb) as (x & X & B & _). { intro ch. exact (begin_on normal type1 (s_io s1) ch). }
  exists x, (c_str x). split; [exact X|]. split; [apply cut_c_str|].
  set (s2 := {| s_io := fst (run normal b _); s_asserts := _; s_fails := _; s_left := false |}).
  assert (B2 : buffer (s_io s2) = x) by (unfold s2; cbn [s_io]; rewrite B; reflexivity).
  set (s3 := judged normal true judge1 place1 s2).
  assert (F3 : s_fails s3 = if judge1 (c_str x) then [] else [RCout place1 (c_str x)]).
  { unfold s3, judged. cbv zeta. cbn [step snd count s_io]. rewrite B2, c_str_end. destruct (judge1 (c_str x)); reflexivity. }
  assert (I3 : s_io s3 = fst (step normal End_ (s_io s2))).
  { apply judged_io. }
  assert (L3 : s_left s3 = false) by (apply judged_left; reflexivity).
  rewrite L3. rewrite do_all by exact L3. cbn [s_left].
  destruct (run_says normal (fun _ => False) c (s_io s3) Pc Sc) as (y & Y & D & _). { intro ch. rewrite I3. cbn [step fst]. split; [contradiction|]. destruct ch; discriminate. }
  apply says_nothing in Y. subst y. rewrite app_nil_r in D.
  set (s4 := {| s_io := _; s_asserts := _; s_fails := s_fails s3; s_left := false |}).
  assert (T4 : snd (step normal End_ (s_io (count s4))) = Text (c_str x)).
  { cbn [step snd count s_io s4]. unfold s4. cbn [s_io]. rewrite D, I3. cbn [step fst buffer]. rewrite B2, c_str_nul, c_str_end. reflexivity. }
  set (s5 := judged normal true judge place s4).
  assert (F5 : s_fails s5 = s_fails s3 ++ if judge (c_str x) then [] else [RCout place (c_str x)]).
  { unfold s5, judged. cbv zeta. rewrite T4. destruct (judge (c_str x)); cbn; rewrite ?app_nil_r; reflexivity. }
  assert (L5 : s_left s5 = false) by (apply judged_left; reflexivity).
  rewrite L5. transitivity (s_fails s5); [reflexivity|]. rewrite F5, F3. reflexivity.
Qed.
