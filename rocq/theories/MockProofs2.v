From Coq Require Import List ZArith Bool Lia Arith.
From Verif Require Import MockModel MockSpec MockProofs.
Import ListNotations.
Local Open Scope Z_scope.

Lemma nth_error_combine : forall (A B : Type) (l : list A) (l' : list B) j a b,
  nth_error (combine l l') j = Some (a, b) <-> nth_error l j = Some a /\ nth_error l' j = Some b.
Proof.
  induction l as [|x l IH]; intros [|y l'] [|j] a b; cbn; try (split; [discriminate|intros [? ?]; discriminate]).
  - split; [intro H; injection H as -> ->; auto|intros [H1 H2]; injection H1 as ->; injection H2 as ->; auto].
  - apply IH.
Qed.
Lemma nth_error_skipn : forall (A : Type) n (l : list A) j, nth_error (skipn n l) j = nth_error l (n + j).
Proof. induction n as [|n IH]; intros [|x l] j; cbn; auto. destruct j; auto. Qed.

Definition wf {V R} (k : mocker V R) : Prop :=
  length (matchers k) = length (checkins k) /\ length (routines k) = length (checkins k) /\ (forall c, In c (checkins k) -> least c <= most c).

Definition zs_of {V R} (k : mocker V R) := combine (skipn (index k) (checkins k)) (skipn (index k) (matchers k)).
Lemma zs_nth : forall V R (k : mocker V R) j c m, nth_error (zs_of k) j = Some (c, m) <->
  nth_error (checkins k) (index k + j) = Some c /\ nth_error (matchers k) (index k + j) = Some m.
Proof. intros. unfold zs_of. rewrite nth_error_combine, !nth_error_skipn. tauto. Qed.
Lemma zs_length : forall V R (k : mocker V R), length (matchers k) = length (checkins k) -> length (zs_of k) = (length (checkins k) - index k)%nat.
Proof. intros. unfold zs_of. rewrite combine_length, !skipn_length. lia. Qed.

Lemma acc_accepts : forall V (args : list V) z, acc args z = true <-> accepts (snd z) args.
Proof. intros. unfold acc. rewrite <- tuple_matches_nil. destruct (tuple_matches 0 (snd z) args); split; congruence. Qed.
Lemma acc_false : forall V (args : list V) z, acc args z = false <-> ~ accepts (snd z) args.
Proof. intros. rewrite <- acc_accepts. destruct (acc args z); split; congruence. Qed.

Definition scan_of {V R} (ab : bool) (k : mocker V R) (args : list V) : scanned :=
  scan ab (greed k) (skipn (index k) (checkins k)) (skipn (index k) (matchers k)) args (index k) (index k) None [].
Lemma scan_of_result : forall V R ab (k : mocker V R) args, scan_result ab (greed k) args (zs_of k) (index k) (index k) [] (scan_of ab k args).
Proof. intros. unfold scan_of. rewrite scan_scanz. apply scanz_none. Qed.

(** expectations at absolute positions *)
Definition at_ {V R} (k : mocker V R) (j : nat) (c : checkin) (m : list (V -> bool)) : Prop :=
  nth_error (checkins k) j = Some c /\ nth_error (matchers k) j = Some m.
Lemma at_zs : forall V R (k : mocker V R) j c m, (index k <= j)%nat -> at_ k j c m -> nth_error (zs_of k) (j - index k) = Some (c, m).
Proof. intros V R k j c m H A. apply zs_nth. replace (index k + (j - index k))%nat with j by lia. exact A. Qed.

Lemma at_ex : forall V R (k : mocker V R) j, length (matchers k) = length (checkins k) -> (j < length (checkins k))%nat -> exists c m, at_ k j c m.
Proof.
  intros V R k j L H. destruct (nth_error (checkins k) j) as [c|] eqn:E; [|apply nth_error_None in E; lia].
  destruct (nth_error (matchers k) j) as [m|] eqn:F; [|apply nth_error_None in F; lia]. exists c, m. split; auto.
Qed.
Lemma at_lt : forall V R (k : mocker V R) j c m, at_ k j c m -> (j < length (checkins k))%nat.
Proof. intros V R k j c m [H _]. apply nth_error_Some. congruence. Qed.

(** a call, described with absolute positions *)
Record call_spec {V R} (ab : bool) (k : mocker V R) (args : list V) (k' : mocker V R) (o : outcome) : Prop := mkcs {
  cs_same : matchers k' = matchers k /\ routines k' = routines k /\ greed k' = greed k;
  cs_charged : forall i, o_charged o = Some i -> exists c m, at_ k i c m /\ accepts m args /\ (index k <= i)%nat /\ index k' = i /\ checkins k' = charge (checkins k) i;
  cs_none : o_charged o = None -> index k' = index k /\ checkins k' = checkins k /\ o_reports o <> [];
  cs_passed : forall i j c m, o_charged o = Some i -> (index k <= j < i)%nat -> at_ k j c m ->
     ~ accepts m args /\ (In (Mismatch j (tuple_matches 0 m args)) (o_reports o) <-> is_satisfied c = false)
     \/ accepts m args /\ passable (greed k) c = true;
  cs_over : forall i c m c1 m1, o_charged o = Some i -> at_ k i c m -> passable (greed k) c = true -> at_ k (S i) c1 m1 -> ~ accepts m1 args;
  cs_unexpected : In Unexpected (o_reports o) -> o_charged o = None /\ forall j c m, (index k <= j)%nat -> at_ k j c m -> ~ accepts m args;
  cs_reported : forall j bad, In (Mismatch j bad) (o_reports o) -> exists c m, at_ k j c m /\ (index k <= j)%nat /\ ~ accepts m args /\ is_satisfied c = false /\
     bad = tuple_matches 0 m args /\ (forall j' c' m', (index k <= j' < j)%nat -> at_ k j' c' m' -> ~ accepts m' args) /\ (forall i, o_charged o = Some i -> (j < i)%nat);
  cs_complete : (forall j c m, (index k <= j)%nat -> at_ k j c m -> ~ accepts m args) -> o_charged o = None /\
     (ab = false -> In Unexpected (o_reports o) /\ forall j c m, (index k <= j)%nat -> at_ k j c m -> is_satisfied c = false -> In (Mismatch j (tuple_matches 0 m args)) (o_reports o)) }.

Lemma matches_call_spec : forall V R ab (k : mocker V R) args k' o, length (matchers k) = length (checkins k) ->
  matches ab k args = (k', o) -> call_spec ab k args k' o.
Proof.
  intros V R ab k args k' o L E. unfold matches in E. fold (scan_of ab k args) in E. cbv zeta in E.
  pose proof (zs_length V R k L) as ZL.
  destruct (scan_of_result V R ab k args) as [p [c m] Ab Hz Az Sz Hp|reps' H1 H2|p n reps' H1 H2 Ln H3 H4 H5]; cbn [sc_aborted sc_offset sc_reports sc_index app] in E.
  - injection E as <- <-. apply zs_nth in Hz. apply acc_false in Az. cbn [fst snd] in *. constructor; cbn [o_charged o_reports o_aborted matchers routines greed index checkins].
    + auto.
    + intros i Hi; discriminate.
    + intros _. split; auto. split; auto. discriminate.
    + intros i j c0 m0 Hi; discriminate.
    + intros i c0 m0 c1 m1 Hi; discriminate.
    + intros [Hc|[]]; discriminate.
    + intros j bad [Hr|[]]. injection Hr as <- <-. exists c, m. split; auto. split; [lia|]. split; auto. split; auto. split; auto. split; [|intros i Hi; discriminate].
      intros j' c' m' Hj Ha. pose proof (at_zs _ _ _ _ _ _ (proj1 Hj) Ha) as Hn. assert (Hlt : (j' - index k < p)%nat) by lia.
      destruct (Hp _ _ Hlt Hn) as [Q _]. apply acc_false in Q. exact Q.
    + intros _. split; auto. congruence.
  - injection E as <- <-. constructor; cbn [o_charged o_reports o_aborted matchers routines greed index checkins].
    + auto.
    + intros i Hi; discriminate.
    + intros _. split; auto. split; auto. intro Hr. apply app_eq_nil in Hr. destruct Hr; discriminate.
    + intros i j c0 m0 Hi; discriminate.
    + intros i c0 m0 c1 m1 Hi; discriminate.
    + intros _. split; auto. intros j c m Hj Ha. destruct (H1 _ _ (at_zs _ _ _ _ _ _ Hj Ha)) as [Q _]. apply acc_false in Q. exact Q.
    + intros j bad Hr. apply in_app_or in Hr. destruct Hr as [Hr|[Hr|[]]]; [|discriminate]. apply H2 in Hr. destruct Hr as (q & [c m] & Hq & Sq & Hr).
      injection Hr as -> ->. destruct (H1 _ _ Hq) as [Q _]. apply acc_false in Q. apply zs_nth in Hq. cbn [fst snd] in *.
      exists c, m. split; auto. split; [lia|]. split; auto. split; auto. split; auto. split; [|intros i Hi; discriminate].
      intros j' c' m' Hj Ha. destruct (H1 _ _ (at_zs _ _ _ _ _ _ (proj1 Hj) Ha)) as [W _]. apply acc_false in W. exact W.
    + intros _. split; auto. intro Ab. split; [apply in_or_app; right; left; auto|]. intros j c m Hj Ha Sf. apply in_or_app. left. apply H2.
      exists (j - index k)%nat, (c, m). split; [apply at_zs; auto|]. split; auto. cbn [snd]. f_equal. lia.
  - injection E as <- <-. assert (Ep : exists z, nth_error (zs_of k) (p + n) = Some z).
    { destruct (nth_error (zs_of k) (p + n)) as [z|] eqn:Ez; [exists z; auto|]. apply nth_error_None in Ez. lia. }
    destruct Ep as [[c m] Hz]. assert (Az : acc args (c, m) = true) by (apply (H3 (p + n)%nat); auto; lia). apply acc_accepts in Az.
    pose proof Hz as Hz'. apply zs_nth in Hz'. constructor; cbn [o_charged o_reports o_aborted matchers routines greed index checkins].
    + auto.
    + intros i Hi. injection Hi as <-. exists c, m. cbn [snd] in Az. split; auto. split; auto. split; [lia|]. auto.
    + discriminate.
    + intros i j c0 m0 Hi Hj Ha. injection Hi as <-. pose proof (at_zs _ _ _ _ _ _ (proj1 Hj) Ha) as Hn.
      destruct (Nat.lt_ge_cases (j - index k) p) as [Q|Q].
      * left. destruct (H1 _ _ Q Hn) as [W _]. apply acc_false in W. cbn [snd] in W. split; auto. rewrite H2. split.
        -- intros (q & [cq mq] & Hq & Hqn & Sq & Er). injection Er as Er _. assert (q = (j - index k)%nat) by lia. subst q. rewrite Hn in Hqn. injection Hqn as <- <-. auto.
        -- intro Sf. exists (j - index k)%nat, (c0, m0). split; auto. split; auto. split; auto. cbn [snd]. f_equal. lia.
      * right. split.
        -- assert (W : acc args (c0, m0) = true) by (apply (H3 (j - index k)%nat); auto; lia). apply acc_accepts in W. exact W.
        -- apply (H4 (j - index k)%nat (c0, m0)); auto. lia.
    + intros i c0 m0 c1 m1 Hi Ha Hp Hb. injection Hi as <-.
      assert (Hn : nth_error (zs_of k) (p + n) = Some (c0, m0)) by (apply zs_nth; auto).
      assert (Hn1 : nth_error (zs_of k) (S (p + n)) = Some (c1, m1)) by (apply zs_nth; replace (index k + S (p + n))%nat with (S (index k + (p + n))) by lia; exact Hb).
      pose proof (H5 _ _ Hn Hp Hn1) as W. apply acc_false in W. exact W.
    + intro Hr. exfalso. apply H2 in Hr. destruct Hr as (q & y & _ & _ & _ & Er). discriminate.
    + intros j bad Hr. apply H2 in Hr. destruct Hr as (q & [c0 m0] & Hq & Hqn & Sq & Er). injection Er as -> ->. destruct (H1 _ _ Hq Hqn) as [Q _].
      apply acc_false in Q. apply zs_nth in Hqn. cbn [fst snd] in *. exists c0, m0. split; auto. split; [lia|]. split; auto. split; auto. split; auto. split.
      * intros j' c' m' Hj Ha. pose proof (at_zs _ _ _ _ _ _ (proj1 Hj) Ha) as Hn. assert (Hlt : (j' - index k < p)%nat) by lia.
        destruct (H1 _ _ Hlt Hn) as [W _]. apply acc_false in W. exact W.
      * intros i Hi. injection Hi as <-. lia.
    + intro Hall. exfalso. apply (Hall (index k + (p + n))%nat c m); auto. lia.
Qed.

Lemma nth_charge : forall l i j c, nth_error (charge l i) j = Some c ->
  exists c0, nth_error l j = Some c0 /\ least c = least c0 /\ most c = most c0 /\ call c = call c0 + (if Nat.eqb i j then 1 else 0).
Proof.
  induction l as [|x l IH]; intros i j c H; [destruct i, j; discriminate|]. destruct i as [|i]; cbn [charge] in H.
  - destruct j as [|j]; cbn in H.
    + injection H as <-. exists x. cbn. auto.
    + exists c. cbn. repeat split; auto. lia.
  - destruct j as [|j]; cbn in H.
    + injection H as <-. exists x. cbn. repeat split; auto. lia.
    + apply IH in H. cbn. exact H.
Qed.
Lemma charge_length : forall l i, length (charge l i) = length l.
Proof. induction l as [|x l IH]; intros [|i]; cbn; auto. Qed.
Lemma charge_bounds : forall l i, map (fun c => (least c, most c)) (charge l i) = map (fun c => (least c, most c)) l.
Proof. induction l as [|x l IH]; intros [|i]; cbn; f_equal; auto. Qed.

(** *** declarations *)
Definition bnds {V R} (k : mocker V R) := map (fun c => (least c, most c)) (checkins k).
Record dinv {V R} (k : mocker V R) : Prop := mkdinv {
  d_ms : length (matchers k) = length (checkins k); d_rs : length (routines k) = length (checkins k);
  d_zero : forall c, In c (checkins k) -> call c = 0; d_idx : index k = 0%nat }.
Lemma removelast_length : forall (A : Type) (l : list A), length (removelast l) = pred (length l).
Proof. induction l as [|x [|y l] IH]; cbn in *; auto. Qed.
Lemma set_back_length : forall (A : Type) (l : list A) v, l <> [] -> length (set_back l v) = length l.
Proof. intros A l v H. unfold set_back. rewrite app_length, removelast_length. cbn [length]. destruct l; [congruence|cbn; lia]. Qed.
Lemma fresh_bounds : forall b, call (fresh b) = 0 /\ (least (fresh b), most (fresh b)) = range b.
Proof. destruct b; cbn; auto. Qed.
Lemma expect_dinv : forall V R (k : mocker V R) b ms, dinv k -> dinv (expect k b ms) /\ bnds (expect k b ms) = bnds k ++ [range b].
Proof.
  intros V R k b ms [A B C D]. split; [constructor; unfold expect; cbn [checkins matchers routines index]|].
  - rewrite !app_length. cbn. lia.
  - rewrite !app_length. cbn. lia.
  - intros c H. apply in_app_or in H. destruct H as [H|[<-|[]]]; auto. apply fresh_bounds.
  - auto.
  - unfold bnds, expect. cbn [checkins]. rewrite map_app. cbn [map]. destruct (fresh_bounds b) as [_ ->]. auto.
Qed.
Lemma ensure_dinv : forall V R (k : mocker V R), dinv k -> dinv (ensure k) /\ checkins (ensure k) <> [] /\
  bnds (ensure k) = match bnds k with [] => [(0, 2147483647)] | l => l end.
Proof.
  intros V R k D. unfold ensure. destruct (checkins k) as [|c l] eqn:E.
  - destruct (expect_dinv V R k Any [] D) as [A B]. split; auto. split.
    + unfold expect. cbn. rewrite E. discriminate.
    + rewrite B. unfold bnds. rewrite E. reflexivity.
  - split; auto. split; [rewrite E; discriminate|]. unfold bnds. rewrite E. reflexivity.
Qed.
Lemma declare_dinv : forall V R (k : mocker V R) d, dinv k -> dinv (declare k d) /\
  bnds (declare k d) = match d with Expect b _ => bnds k ++ [range b] | Greed _ => bnds k | _ => match bnds k with [] => [(0, 2147483647)] | l => l end end.
Proof.
  intros V R k d D. destruct d as [b ms|ms|i m|r|r|b]; cbn [declare].
  - apply expect_dinv. auto.
  - destruct (ensure_dinv V R k D) as ([A B C E] & NE & Bn). split; [|exact Bn]. constructor; cbn [checkins matchers routines index]; auto.
    rewrite set_back_length; auto. intro Z. rewrite Z in A. destruct (checkins (ensure k)); [congruence|discriminate].
  - destruct (ensure_dinv V R k D) as ([A B C E] & NE & Bn). split; [|exact Bn]. constructor; cbn [checkins matchers routines index]; auto.
    rewrite set_back_length; auto. intro Z. rewrite Z in A. destruct (checkins (ensure k)); [congruence|discriminate].
  - destruct (ensure_dinv V R k D) as ([A B C E] & NE & Bn). split; [|exact Bn]. constructor; cbn [checkins matchers routines index]; auto.
    rewrite app_length. cbn [length]. destruct (routines (ensure k)) as [|r0 l] eqn:Er; [destruct (checkins (ensure k)); [congruence|discriminate]|].
    rewrite removelast_length. cbn [length] in *. lia.
  - destruct (ensure_dinv V R k D) as ([A B C E] & NE & Bn). split; [|exact Bn]. constructor; cbn [checkins matchers routines index]; auto.
    rewrite map_length. auto.
  - destruct D as [A B C E]. split; [constructor; auto|reflexivity].
Qed.
Lemma reset_dinv : forall V R, dinv (@reset V R).
Proof. intros. constructor; cbn; auto. intros c []. Qed.
Lemma fold_dinv : forall V R ds (k : mocker V R), dinv k -> dinv (fold_left declare ds k) /\
  bnds (fold_left declare ds k) = match bnds k with [] => ranges ds | l => l ++ flat_map explicit ds end.
Proof.
  induction ds as [|d ds IH]; intros k D; cbn [fold_left].
  - split; auto. destruct (bnds k); auto. cbn. rewrite app_nil_r. auto.
  - destruct (declare_dinv V R k d D) as [D1 B1]. destruct (IH _ D1) as [D2 B2]. split; auto. rewrite B2, B1.
    destruct d as [b ms|ms|i m|r|r|b]; cbn [ranges flat_map explicit app]; destruct (bnds k) as [|x l]; cbn [app]; auto.
    rewrite <- app_assoc. auto.
Qed.
Lemma declares_dinv : forall V R (ds : list (decl V R)), dinv (declares ds) /\ bnds (declares ds) = ranges ds.
Proof. intros V R ds. unfold declares. destruct (fold_dinv V R ds reset (reset_dinv V R)) as [A B]. split; auto. Qed.

Lemma ranges_proper : forall V R (ds : list (decl V R)) l r, proper ds -> In (l, r) (ranges ds) -> l <= r.
Proof.
  assert (F : forall V R (ds : list (decl V R)) l r, proper ds -> In (l, r) (flat_map explicit ds) -> l <= r).
  { intros V R ds l r P H. apply in_flat_map in H. destruct H as (d & Hd & H). destruct d as [b ms| | | | |]; cbn in H; try contradiction.
    destruct H as [H|[]]. pose proof (P b ms Hd) as Q. rewrite H in Q. exact Q. }
  intros V R. induction ds as [|d ds IH]; intros l r P H; [destruct H|]. assert (P' : proper ds) by (intros b ms Hb; apply (P b ms); right; auto).
  destruct d as [b ms|ms|i m|x|x|b]; cbn [ranges] in H; try (destruct H as [H|H]; [injection H as <- <-; lia|apply (F V R ds); auto]).
  - destruct H as [H|H]; [|apply (F V R ds); auto]. pose proof (P b ms (or_introl eq_refl)) as Q. rewrite H in Q. exact Q.
  - auto.
Qed.

(** *** histories *)
Lemma charged_cons : forall i o os, charged i (o :: os) = (match o_charged o with Some j => if Nat.eqb j i then 1 else 0 | None => 0 end) + charged i os.
Proof. intros. unfold charged. cbn [filter]. destruct (o_charged o) as [j|]; [destruct (Nat.eqb j i)|]; cbn [length]; lia. Qed.
Lemma charged_nonneg : forall i os, 0 <= charged i os.
Proof. intros. unfold charged. lia. Qed.

Record hist {V R} (ab : bool) (k : mocker V R) (ls : list (list V)) (k' : mocker V R) (os : list outcome) : Prop := mkhist {
  h_same : matchers k' = matchers k /\ routines k' = routines k /\ greed k' = greed k;
  h_bnds : bnds k' = bnds k;
  h_call : forall i c', nth_error (checkins k') i = Some c' -> exists c, nth_error (checkins k) i = Some c /\ least c' = least c /\ most c' = most c /\ call c' = call c + charged i os;
  h_len : length (checkins k') = length (checkins k) }.

Lemma calls_hist : forall V R ab ls (k : mocker V R) k' os, length (matchers k) = length (checkins k) -> calls ab k ls = (k', os) -> hist ab k ls k' os.
Proof.
  induction ls as [|a ls IH]; intros k k' os L E; cbn [calls] in E.
  - injection E as <- <-. constructor; auto. intros i c H. exists c. repeat split; auto. unfold charged. cbn. lia.
  - destruct (matches ab k a) as [k1 o] eqn:M. destruct (calls ab k1 ls) as [k2 os'] eqn:C. injection E as <- <-.
    pose proof (matches_call_spec V R ab k a k1 o L M) as [S1 S2 S3 _ _ _ _ _]. destruct S1 as (Sa & Sb & Sc).
    assert (Q : bnds k1 = bnds k /\ length (checkins k1) = length (checkins k) /\ forall i c', nth_error (checkins k1) i = Some c' -> exists c, nth_error (checkins k) i = Some c /\ least c' = least c /\ most c' = most c /\ call c' = call c + charged i [o]).
    { destruct (o_charged o) as [j|] eqn:O.
      - destruct (S2 j eq_refl) as (c & m & _ & _ & _ & _ & Ec). unfold bnds. rewrite Ec, charge_bounds, charge_length. split; auto. split; auto.
        intros i c' H. apply nth_charge in H. destruct H as (c0 & A & B & C0 & D). exists c0. repeat split; auto. rewrite D, charged_cons, O. unfold charged. cbn [filter length]. lia.
      - destruct (S3 eq_refl) as (_ & Ec & _). unfold bnds. rewrite Ec. split; auto. split; auto. intros i c' H. exists c'. repeat split; auto. rewrite charged_cons, O. unfold charged. cbn. lia. }
    destruct Q as (Q1 & Q2 & Q3). assert (L1 : length (matchers k1) = length (checkins k1)) by (rewrite Sa, Q2; auto).
    destruct (IH k1 k2 os' L1 C) as [(A & B & D) F G H]. constructor.
    + rewrite A, B, D. auto.
    + rewrite F. auto.
    + intros i c' Hi. destruct (G i c' Hi) as (c1 & G1 & G2 & G3 & G4). destruct (Q3 _ _ G1) as (c & T1 & T2 & T3 & T4). exists c.
      split; auto. split; [congruence|]. split; [congruence|]. rewrite G4, T4, !charged_cons. change (charged i []) with 0. lia.
    + congruence.
Qed.

Lemma violated_in : forall l i q, In q (violated i l) <-> exists j c, q = (i + j)%nat /\ nth_error l j = Some c /\ check_fails c = true.
Proof.
  induction l as [|c l IH]; intros i q; cbn [violated].
  - split; [intros []|]. intros ([|j] & c & _ & H & _); discriminate.
  - rewrite in_app_iff, IH. split.
    + intros [H|(j & x & -> & H)].
      * destruct (check_fails c) eqn:E; [|destruct H]. destruct H as [<-|[]]. exists 0%nat, c. split; [lia|]. auto.
      * exists (S j), x. split; [lia|]. exact H.
    + intros ([|j] & x & -> & H & F).
      * left. cbn in H. injection H as ->. rewrite F. left. lia.
      * right. exists j, x. split; [lia|]. auto.
Qed.
Lemma check_fails_iff : forall c, least c <= most c -> check_fails c = true <-> ~ (least c <= call c <= most c).
Proof.
  intros c H. unfold check_fails, is_satisfied, is_saturated. rewrite negb_true_iff, orb_false_iff, andb_false_iff, !Z.leb_gt, Z.eqb_neq. lia.
Qed.
Lemma nth_bnds : forall V R (k : mocker V R) i l r, nth_error (bnds k) i = Some (l, r) <-> exists c, nth_error (checkins k) i = Some c /\ least c = l /\ most c = r.
Proof.
  intros. unfold bnds. rewrite nth_error_map. destruct (nth_error (checkins k) i) as [c|]; cbn.
  - split; [intro H; injection H as <- <-; exists c; auto|intros (c' & H & <- & <-); injection H as ->; auto].
  - split; [discriminate|intros (c & H & _); discriminate].
Qed.

Theorem verdict : forall V R ab (ds : list (decl V R)) ls k os, proper ds -> calls ab (declares ds) ls = (k, os) ->
  forall i, In i (check k) <-> exists l r, nth_error (ranges ds) i = Some (l, r) /\ ~ (l <= charged i os <= r).
Proof.
  intros V R ab ds ls k os P E i. destruct (declares_dinv V R ds) as [[D1 D2 D3 D4] B]. pose proof (calls_hist V R ab ls _ k os D1 E) as [H1 H2 H3 H4].
  unfold check. rewrite violated_in. split.
  - intros (j & c & -> & Hc & F). cbn [Nat.add]. destruct (H3 _ _ Hc) as (c0 & A1 & A2 & A3 & A4).
    assert (Hr : nth_error (ranges ds) j = Some (least c, most c)) by (rewrite <- B, <- H2; apply nth_bnds; exists c; auto).
    exists (least c), (most c). split; auto. apply check_fails_iff in F.
    + rewrite A4, (D3 c0) in F by (eapply nth_error_In; eauto). exact F.
    + apply (ranges_proper V R ds); auto. eapply nth_error_In; eauto.
  - intros (l & r & Hr & F). pose proof Hr as Hr'. rewrite <- B, <- H2 in Hr'. apply nth_bnds in Hr'. destruct Hr' as (c & Hc & <- & <-).
    exists i, c. split; auto. split; auto. apply check_fails_iff.
    + apply (ranges_proper V R ds); auto. eapply nth_error_In; eauto.
    + destruct (H3 _ _ Hc) as (c0 & A1 & A2 & A3 & A4). rewrite A4, (D3 c0) by (eapply nth_error_In; eauto). exact F.
Qed.

Lemma verdict_passes : forall V R ab (ds : list (decl V R)) ls k os, proper ds -> calls ab (declares ds) ls = (k, os) ->
  (check k = [] <-> forall i l r, nth_error (ranges ds) i = Some (l, r) -> l <= charged i os <= r).
Proof.
  intros V R ab ds ls k os P E. pose proof (verdict V R ab ds ls k os P E) as H. split.
  - intros C i l r Hr. destruct (Z_le_dec l (charged i os)) as [A|A]; destruct (Z_le_dec (charged i os) r) as [B|B]; auto; exfalso;
      (assert (I : In i (check k)) by (apply H; exists l, r; split; auto; lia)); rewrite C in I; destruct I.
  - intro A. destruct (check k) as [|i t] eqn:C; auto. exfalso. destruct (proj1 (H i)) as (l & r & Hr & F); [left; auto|]. apply F. apply A. auto.
Qed.

(** *** order *)
Lemma order_inv : forall V R ab ls (k : mocker V R) k' os, wf k -> calls ab k ls = (k', os) -> (forall o, In o os -> o_reports o = []) ->
  (forall j c, (j < index k)%nat -> nth_error (checkins k) j = Some c -> least c <= call c) ->
  (index k <= index k')%nat /\ forall j c, (j < index k')%nat -> nth_error (checkins k') j = Some c -> least c <= call c.
Proof.
  induction ls as [|a ls IH]; intros k k' os W E N H; cbn [calls] in E.
  - injection E as <- <-. auto.
  - destruct (matches ab k a) as [k1 o] eqn:M. destruct (calls ab k1 ls) as [k2 os'] eqn:C. injection E as <- <-.
    destruct W as (W1 & W2 & W3). pose proof (matches_call_spec V R ab k a k1 o W1 M) as [S1 S2 S3 S4 _ _ _ _]. destruct S1 as (Sa & Sb & Sc).
    assert (No : o_reports o = []) by (apply N; left; auto).
    destruct (o_charged o) as [i|] eqn:O; [|destruct (S3 eq_refl) as (_ & _ & Q); congruence].
    destruct (S2 i eq_refl) as (c & m & A1 & A2 & A3 & A4 & A5).
    assert (W' : wf k1).
    { unfold wf. rewrite A5, Sa, Sb, charge_length. split; auto. split; auto. intros x Hx. apply In_nth_error in Hx. destruct Hx as [q Hq]. apply nth_charge in Hq.
      destruct Hq as (x0 & Hx0 & -> & -> & _). apply W3. eapply nth_error_In; eauto. }
    destruct (IH k1 k2 os' W' C) as [I1 I2].
    + intros o' Ho'. apply N. right. auto.
    + intros j x Hj Hx. rewrite A4 in Hj. rewrite A5 in Hx. apply nth_charge in Hx. destruct Hx as (x0 & Hx0 & -> & _ & ->).
      assert (Q : least x0 <= call x0).
      { destruct (Nat.lt_ge_cases j (index k)) as [B|B]; [apply (H j); auto|].
        destruct (at_ex V R k j W1) as (x1 & m1 & At); [apply nth_error_Some; congruence|]. destruct At as [At1 At2]. assert (x1 = x0) by congruence. subst x1.
        destruct (S4 i j x0 m1 eq_refl (conj B Hj) (conj At1 At2)) as [[_ F]|[_ F]].
        - rewrite No in F. destruct (is_satisfied x0) eqn:Sx; [unfold is_satisfied in Sx; lia|]. exfalso. apply (proj2 F). auto.
        - unfold passable, is_saturated, insufficient in F. pose proof (W3 x0 (nth_error_In _ _ Hx0)). lia. }
      destruct (Nat.eqb i j); lia.
    + split; auto. lia.
Qed.

Lemma declares_wf : forall V R (ds : list (decl V R)), proper ds -> wf (declares ds).
Proof.
  intros V R ds P. destruct (declares_dinv V R ds) as [[D1 D2 D3 D4] B]. split; auto. split; auto. intros c Hc. apply In_nth_error in Hc. destruct Hc as [i Hi].
  assert (nth_error (bnds (declares ds)) i = Some (least c, most c)) by (apply nth_bnds; exists c; auto). rewrite B in H. apply (ranges_proper V R ds); auto. eapply nth_error_In; eauto.
Qed.

Lemma left_behind : forall V R ab (ds : list (decl V R)) ls k os, proper ds -> calls ab (declares ds) ls = (k, os) ->
  (forall o, In o os -> o_reports o = []) -> forall j l r, (j < index k)%nat -> nth_error (ranges ds) j = Some (l, r) -> l <= charged j os.
Proof.
  intros V R ab ds ls k os P E N j l r Hj Hr. destruct (declares_dinv V R ds) as [[D1 D2 D3 D4] B].
  destruct (order_inv V R ab ls _ k os (declares_wf V R ds P) E N) as [_ Q]; [intros; rewrite D4 in *; lia|].
  pose proof (calls_hist V R ab ls _ k os D1 E) as [H1 H2 H3 H4].
  rewrite <- B, <- H2 in Hr. apply nth_bnds in Hr. destruct Hr as (c & Hc & <- & _). specialize (Q j c Hj Hc).
  destruct (H3 _ _ Hc) as (c0 & A1 & A2 & A3 & A4). rewrite A4, (D3 c0) in Q by (eapply nth_error_In; eauto). lia.
Qed.

(** *** statement-level wrappers *)
Lemma hist_len : forall V R ab (ds : list (decl V R)) ls k os, calls ab (declares ds) ls = (k, os) -> length (matchers k) = length (checkins k) /\ length (routines k) = length (checkins k) /\ matchers k = matchers (declares ds) /\ routines k = routines (declares ds) /\ length (checkins k) = length (ranges ds) /\ greed k = greed (declares ds).
Proof.
  intros V R ab ds ls k os E. destruct (declares_dinv V R ds) as [[D1 D2 D3 D4] B]. pose proof (calls_hist V R ab ls _ k os D1 E) as [(Ha & Hb & Hc) H2 H3 H4].
  rewrite Ha, Hb, H4. repeat split; auto. rewrite <- B. unfold bnds. rewrite map_length. auto.
Qed.
