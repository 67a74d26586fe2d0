(** Proofs about the JUnit report: what it says of a run. *)
From Coq Require Import List NArith ZArith Bool Arith Lia.
From Verif Require Import Base RunnerModel RunnerSpec RunnerProofs JunitModel XmlSpec JunitSpec JunitProofs.
Import ListNotations.
Local Open Scope N_scope.

Definition treats (o : opts) (body : oracle) (c : case_) (v : visit) : Prop := exists n, treated o body (n, c) v.
Definition good (ft : facts) (c : case_) (v : visit) (k : card) : Prop :=
  k_name k = f_name ft (c_id c) /\ k_filine k = f_filine ft (c_id c) /\ status k = status_of c (v_class v) /\ (k_failed k = true <-> v_class v = Failed).
Definition unseen (past : list visit) (fl : flags) : Prop := forall j, (forall v, In v past -> v_executed v = true -> v_case v <> j) -> fl j = (false, false).
Definition settled (vs : list visit) : Prop := forall p v r, vs = p ++ v :: r -> v_executed v = false -> forall u, In u p -> v_executed u = true -> v_case u <> v_case v.
Inductive goods (ft : facts) : list case_ -> list visit -> list card -> Prop :=
| GNil : goods ft [] [] []
| GCons : forall c v k cs vs ks, good ft c v k -> goods ft cs vs ks -> goods ft (c :: cs) (v :: vs) (k :: ks).
Lemma goods_app : forall ft c1 v1 k1, goods ft c1 v1 k1 -> forall c2 v2 k2, goods ft c2 v2 k2 -> goods ft (c1 ++ c2) (v1 ++ v2) (k1 ++ k2).
Proof. intros ft c1 v1 k1 G. induction G; intros; cbn; auto. constructor; auto. Qed.

Lemma cards_ok : forall ft o body, lists o = false -> forall cs v1, Forall2 (treats o body) cs v1 -> forall past fl v2, unseen past fl -> settled (past ++ v1) ->
  exists ks fl2, cards ft body fl cs (v1 ++ v2) = (ks, fl2, v2) /\ goods ft cs v1 ks /\ unseen (past ++ v1) fl2.
Proof.
  intros ft o body NL cs v1 F. induction F as [|c v cs v1 T F IH]; intros past fl v2 U S.
  - exists [], fl. split; [destruct v2; reflexivity|]. split; [constructor|]. rewrite app_nil_r. auto.
  - cbn [app cards].
    set (fl' := if v_executed v then fun j => if j =? c_id c then body (v_round v) (c_id c) else fl j else fl).
    assert (VC : v_case v = c_id c) by (destruct T as (n & T); inversion T; reflexivity).
    assert (U' : unseen (past ++ [v]) fl').
    { intros j N. unfold fl'. destruct (v_executed v) eqn:EX.
      - destruct (j =? c_id c) eqn:E; [apply N.eqb_eq in E; subst j; exfalso; apply (N v); auto; apply in_or_app; right; left; auto|]. apply U. intros u I. apply N, in_or_app. auto.
      - apply U. intros u I. apply N, in_or_app. auto. }
    destruct (IH (past ++ [v]) fl' v2 U') as (ks & fl2 & E & G & UU); [rewrite <- app_assoc; exact S|].
    rewrite E. eexists. eexists. split; [reflexivity|]. split; [|rewrite <- app_assoc in UU; exact UU].
    constructor; auto. split; [reflexivity|]. split; [reflexivity|].
    assert (Q : v_executed v = false -> fl' (c_id c) = (false, false)).
    { intros EX. unfold fl'. rewrite EX. apply U. intros u I EU. rewrite <- VC. apply (S past v v1); auto. }
    destruct T as (n & T). unfold status, status_of. cbn [k_todo k_filtered k_ignored k_failed k_warning].
    inversion T; subst; cbn [v_executed v_class v_round v_case] in *; unfold fl'; cbv beta iota; rewrite ?N.eqb_refl;
      try (specialize (Q eq_refl); unfold fl' in Q; cbv beta iota in Q; rewrite Q; cbn [fst snd]);
      repeat match goal with H : _ = true |- _ => rewrite H; clear H | H : _ = false |- _ => rewrite H; clear H end;
      try (match goal with H : body _ _ = _ |- _ => rewrite H end; cbn [fst snd]);
      try (destruct (c_todo c), (c_filtered c)); split; try reflexivity; try (split; congruence); try congruence.
Qed.
Lemma sheets_ok : forall ft o body, lists o = false -> forall suites vs, Forall2 (treats o body) (flat_map snd suites) vs -> forall past fl, unseen past fl -> settled (past ++ vs) ->
  map s_name (sheets ft body fl suites vs) = map fst suites /\ map (fun s => length (s_cards s)) (sheets ft body fl suites vs) = map (fun x => length (snd x)) suites /\
  goods ft (flat_map snd suites) vs (flat_map s_cards (sheets ft body fl suites vs)).
Proof.
  intros ft o body NL suites. induction suites as [|(name, cs) r IH]; intros vs F past fl U S.
  - cbn in F. inversion F; subst. split; [reflexivity|]. split; [reflexivity|constructor].
  - cbn [flat_map snd] in F. apply Forall2_app_inv_l in F. destruct F as (v1 & v2 & F1 & F2 & ->).
    destruct (cards_ok ft o body NL cs v1 F1 past fl v2 U) as (ks & fl2 & E & G & UU).
    { intros p v q0 EQ NX u I EU. apply (S p v (q0 ++ v2)); auto. rewrite app_assoc, EQ, <- app_assoc. reflexivity. }
    cbn [sheets]. rewrite E. cbn [map flat_map snd s_name s_cards fst].
    destruct (IH v2 F2 (past ++ v1) fl2 UU) as (A & B & C); [rewrite <- app_assoc; exact S|]. rewrite A, B. split; [reflexivity|].
    split; [|apply goods_app; auto]. f_equal. clear - G. induction G; cbn; auto.
Qed.

Lemma agenda_turns : forall o order, map snd (agenda o (fun n => map snd (order n))) = flat_map snd (turns o order).
Proof.
  intros o order. unfold agenda, turns. generalize (seq 0 (run_rounds o)). intros l. induction l as [|n l IH]; auto.
  cbn [flat_map]. rewrite map_app, flat_map_app, IH. f_equal. rewrite map_map. cbn [snd]. rewrite map_id. clear. induction (order n) as [|x l2 IH2]; cbn; auto. rewrite IH2. reflexivity.
Qed.
Lemma visits_treated : forall o body order, Forall2 (treats o body) (flat_map snd (turns o order)) (visits o body order).
Proof.
  intros o body order. rewrite <- agenda_turns. unfold visits. pose proof (every_case_once o body (fun n => map snd (order n))) as E.
  induction E as [|x v l vs T E IH]; cbn [map]; constructor; auto. exists (fst x). destruct x. exact T.
Qed.
Lemma forall2_in_r : forall A B (R : A -> B -> Prop) l1 l2, Forall2 R l1 l2 -> forall y, In y l2 -> exists x, In x l1 /\ R x y.
Proof. intros A B R l1 l2 F. induction F; intros z []; [subst; eexists; split; [left; reflexivity|auto]|]. destruct (IHF z H0) as (w & I & K). exists w. split; auto. right. auto. Qed.
Lemma treats_id : forall o body cs vs, Forall2 (treats o body) cs vs -> map v_case vs = map c_id cs.
Proof. intros o body cs vs F. induction F as [|c v cs vs (n & T) F IH]; cbn; auto. rewrite IH. inversion T; reflexivity. Qed.
Lemma steady_settled : forall o body order, lists o = false -> steady o order -> settled (visits o body order).
Proof.
  intros o body order NL S p v r E NX u I EX. pose proof (visits_treated o body order) as F. rewrite E in F. destruct S as [(R1 & ND)|(B & OL & K)].
  - rewrite <- (treats_id o body _ _ F) in ND. rewrite map_app in ND. cbn [map] in ND. apply NoDup_remove_2 in ND. intros EQ. apply ND. apply in_or_app. left. rewrite <- EQ. apply in_map. auto.
  - destruct (forall2_in_r _ _ _ _ _ F v ltac:(apply in_or_app; right; left; auto)) as (c & Ic & n & T).
    destruct (forall2_in_r _ _ _ _ _ F u ltac:(apply in_or_app; left; auto)) as (c2 & Ic2 & n2 & T2).
    assert (VC : v_case v = c_id c) by (inversion T; reflexivity). assert (UC : v_case u = c_id c2) by (inversion T2; reflexivity). intros EQ.
    assert (c = c2) by (apply K; auto; congruence). subst c2.
    inversion T; subst; cbn in NX; try discriminate; inversion T2; subst; cbn in EX; try discriminate; try congruence;
      match goal with H : _ \/ _ |- _ => destruct H; [lia|congruence] end.
Qed.

Lemma goods_combine : forall ft s cs vs ks, goods ft cs vs ks ->
  Forall2 (fun cv e => attribute (str "name") e = Some (f_name ft (c_id (fst cv))) /\ attribute (str "status") e = Some (status_of (fst cv) (v_class (snd cv))) /\
                       (named (str "failure") (within e) <> [] <-> v_class (snd cv) = Failed)) (combine cs vs) (map (card_element s) ks) /\ length cs = length vs.
Proof.
  intros ft s cs vs ks G. induction G as [|c v k cs vs ks (A & B & C & D) G (IH & L)]; [split; [constructor|reflexivity]|].
  split; [|cbn; auto]. cbn [combine map]. constructor; auto. cbn [fst snd]. rewrite <- A, <- C, <- D. split; [reflexivity|]. split; [reflexivity|].
  unfold card_element. destruct (k_failed k); cbn; split; auto; try discriminate; congruence.
Qed.
Lemma goods_split : forall ft a b cs vs, goods ft cs vs (a ++ b) -> exists c1 c2 v1 v2, cs = c1 ++ c2 /\ vs = v1 ++ v2 /\ goods ft c1 v1 a /\ goods ft c2 v2 b.
Proof.
  intros ft a. induction a as [|k a IH]; intros b cs vs G; [exists [], cs, [], vs; repeat split; auto; constructor|].
  cbn in G. inversion G as [|c v k' cs' vs' ks' G1 G2]; subst. destruct (IH b cs' vs' G2) as (c1 & c2 & v1 & v2 & -> & -> & X & Y).
  exists (c :: c1), c2, (v :: v1), v2. repeat split; auto. constructor; auto.
Qed.
Lemma goods_length : forall ft cs vs ks, goods ft cs vs ks -> length cs = length vs.
Proof. intros ft cs vs ks G. induction G; cbn; auto. Qed.
Lemma combine_app : forall A B (a1 : list A) (b1 : list B) a2 b2, length a1 = length b1 -> combine (a1 ++ a2) (b1 ++ b2) = combine a1 b1 ++ combine a2 b2.
Proof. intros A B a1. induction a1; intros [|b b1] a2 b2 L; cbn in *; try discriminate; auto. f_equal. auto. Qed.
Lemma elements_ok : forall ft ss cs vs, goods ft cs vs (flat_map s_cards ss) ->
  Forall2 (fun cv e => attribute (str "name") e = Some (f_name ft (c_id (fst cv))) /\ attribute (str "status") e = Some (status_of (fst cv) (v_class (snd cv))) /\
                       (named (str "failure") (within e) <> [] <-> v_class (snd cv) = Failed)) (combine cs vs) (flat_map within (map sheet_element ss)).
Proof.
  intros ft ss. induction ss as [|s ss IH]; intros cs vs G; [cbn in *; inversion G; constructor|].
  cbn [flat_map map] in *. apply goods_split in G. destruct G as (c1 & c2 & v1 & v2 & -> & -> & X & Y). rewrite combine_app by (eapply goods_length; eauto).
  apply Forall2_app; auto. cbn [within sheet_element suite_element]. apply (goods_combine ft (s_name s)) in X. tauto.
Qed.
Lemma failures_count : forall ft ss cs vs, goods ft cs vs (flat_map s_cards ss) ->
  Z.of_nat (length (flat_map (fun e => named (str "failure") (within e)) (flat_map within (map sheet_element ss)))) = count Failed vs.
Proof.
  intros ft ss. induction ss as [|s ss IH]; intros cs vs G; [cbn in *; inversion G; reflexivity|].
  cbn [flat_map map] in *. apply goods_split in G. destruct G as (c1 & c2 & v1 & v2 & -> & -> & X & Y). rewrite flat_map_app, app_length, Nat2Z.inj_add, (IH _ _ Y).
  unfold count. rewrite filter_app, app_length, Nat2Z.inj_add. f_equal. f_equal. cbn [within sheet_element suite_element]. generalize (s_name s). clear -X. intros n.
  induction X as [|c v k cs vs ks (A & B & C & D) G IH]; auto. cbn [map flat_map filter]. rewrite app_length, IH. unfold card_element. cbn [within case_element].
  destruct (k_failed k).
  - rewrite (proj1 D eq_refl). reflexivity.
  - destruct (v_class v); try reflexivity. destruct D as (_ & D). specialize (D eq_refl). discriminate.
Qed.
Lemma cards_facts : forall ft body cs fl vs, Forall (fun k => exists i, k_name k = f_name ft i /\ k_filine k = f_filine ft i) (fst (fst (cards ft body fl cs vs))).
Proof.
  intros ft body cs. induction cs as [|c cs IH]; intros fl vs; [cbn; constructor|]. destruct vs as [|v vs]; [cbn; constructor|].
  cbn [cards]. cbv zeta. match goal with |- context [cards ft body ?f cs vs] => set (fl' := f) end. specialize (IH fl' vs). destruct (cards ft body fl' cs vs) as ((ks & fl2) & rest). cbn [fst] in *. constructor; auto. exists (c_id c). auto.
Qed.
Lemma sheets_clean : forall ft body suites fl vs, clean_facts ft -> Forall (fun x => clean (fst x)) suites -> Forall clean_sheet (sheets ft body fl suites vs).
Proof.
  intros ft body suites. induction suites as [|(n, cs) r IH]; intros fl vs C F; [constructor|]. apply Forall_cons_iff in F. destruct F as (F1 & F).
  cbn [sheets]. pose proof (cards_facts ft body cs fl vs) as K. destruct (cards ft body fl cs vs) as ((ks & fl2) & rest). constructor; auto. split; auto. cbn [s_cards fst] in *.
  eapply Forall_impl; [|exact K]. cbv beta. intros k (i & -> & ->). apply C.
Qed.
Lemma count_rev : forall k l, count k (rev l) = count k l.
Proof.
  intros k l. unfold count. f_equal. induction l as [|v l IH]; auto. cbn [rev]. rewrite filter_app, app_length, IH. cbn [filter]. destruct (class_eqb (v_class v) k); cbn [length]; lia.
Qed.
Lemma unseen_start : unseen [] (fun _ => (false, false)). Proof. intros j _. reflexivity. Qed.
Lemma run_ok : forall ft o body order, lists o = false -> clean_facts ft -> Forall (fun x => clean (fst x)) (turns o order) -> steady o order ->
  exists d, read_xml (junit_run ft o body order) = Some d /\
    map (attribute (str "name")) (within d) = map (fun x => Some (fst x)) (turns o order) /\
    map (fun e => length (within e)) (within d) = map (fun x => length (snd x)) (turns o order) /\
    length (flat_map snd (turns o order)) = length (visits o body order) /\
    Forall2 (fun cv e => attribute (str "name") e = Some (f_name ft (c_id (fst cv))) /\ attribute (str "status") e = Some (status_of (fst cv) (v_class (snd cv))) /\
                         (named (str "failure") (within e) <> [] <-> v_class (snd cv) = Failed))
      (combine (flat_map snd (turns o order)) (visits o body order)) (testcases d) /\
    Z.of_nat (failures d) = failed (r_stats (fst (run o body (fun n => map snd (order n))))).
Proof.
  intros ft o body order NL CF CT ST. unfold junit_run. set (ss := sheets ft body (fun _ => (false, false)) (turns o order) (visits o body order)).
  exists (Element (str "testsuites") [] (map sheet_element ss)). split; [apply read_junit, sheets_clean; auto|].
  destruct (sheets_ok ft o body NL (turns o order) (visits o body order) (visits_treated o body order) [] (fun _ => (false, false)) unseen_start (steady_settled o body order NL ST)) as (A & B & G).
  fold ss in A, B, G. cbn [within]. split.
  { rewrite map_map. transitivity (map (@Some _) (map s_name ss)); [rewrite map_map; apply map_ext; reflexivity|]. rewrite A, map_map. reflexivity. }
  split. { rewrite map_map. rewrite <- B. apply map_ext. intros s. cbn. apply map_length. }
  split; [eapply goods_length; eauto|]. unfold testcases. cbn [within]. split; [apply elements_ok; auto|].
  unfold failures, testcases. cbn [within]. rewrite (failures_count ft ss _ _ G). pose proof (counts o body (fun n => map snd (order n)) Failed ltac:(discriminate)) as CN. cbn [stat] in CN. rewrite CN.
  unfold visits. apply count_rev.
Qed.
Lemma sheets_zero : forall ft body suites fl vs, Forall (fun s => s_failed s = 0 /\ s_todo s = 0 /\ s_filtered s = 0) (sheets ft body fl suites vs).
Proof. intros ft body suites. induction suites as [|(n, cs) r IH]; intros fl vs; [constructor|]. cbn [sheets]. destruct (cards ft body fl cs vs) as ((ks & fl2) & rest). constructor; auto. Qed.
Lemma zeros : forall ft o body order, clean_facts ft -> Forall (fun x => clean (fst x)) (turns o order) ->
  exists d, read_xml (junit_run ft o body order) = Some d /\ Forall (fun e => attribute (str "failures") e = Some (str "0") /\ attribute (str "skipped") e = Some (str "0")) (within d).
Proof.
  intros ft o body order CF CT. unfold junit_run. set (ss := sheets ft body (fun _ => (false, false)) (turns o order) (visits o body order)).
  exists (Element (str "testsuites") [] (map sheet_element ss)). split; [apply read_junit, sheets_clean; auto|].
  cbn [within]. pose proof (sheets_zero ft body (turns o order) (fun _ => (false, false)) (visits o body order)) as Z. fold ss in Z. apply Forall_map.
  eapply Forall_impl; [|exact Z]. cbv beta. intros s (A & B & C). cbn. rewrite A, B, C. auto.
Qed.
