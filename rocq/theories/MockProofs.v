From Coq Require Import List ZArith Bool Lia Arith.
From Verif Require Import MockModel MockSpec.
Import ListNotations.
Local Open Scope Z_scope.

Lemma tuple_matches_in : forall V (ms : list (V -> bool)) args pos p, In p (tuple_matches pos ms args) <-> exists q, p = (pos + q)%nat /\ refused ms args q.
Proof.
  intros V ms args. revert ms. induction args as [|a args IH]; intros ms pos p.
  - replace (tuple_matches pos ms []) with (@nil nat) by (destruct ms; auto). split; [intros []|]. intros (q & _ & m & a & _ & H & _). destruct q; discriminate.
  - destruct ms as [|m ms]; cbn [tuple_matches].
    + split; [intros []|]. intros (q & _ & m & x & H & _). destruct q; discriminate.
    + rewrite in_app_iff, IH. split.
      * intros [H|(q & -> & H)].
        -- destruct (m a) eqn:E; cbn in H; [destruct H|]. destruct H as [<-|[]]. exists 0%nat. split; [lia|]. exists m, a. auto.
        -- exists (S q). split; [lia|]. exact H.
      * intros (q & -> & H). destruct q as [|q].
        -- left. destruct H as (m' & a' & H1 & H2 & H3). cbn in H1, H2. injection H1 as ->. injection H2 as ->. rewrite H3. left. lia.
        -- right. exists q. split; [lia|]. exact H.
Qed.
Lemma tuple_matches_nil : forall V (ms : list (V -> bool)) args, tuple_matches 0 ms args = [] <-> accepts ms args.
Proof.
  intros V ms args. split.
  - intros H i m a Hm Ha. destruct (m a) eqn:E; auto. exfalso.
    assert (In i (tuple_matches 0 ms args)) by (apply tuple_matches_in; exists i; split; auto; exists m, a; auto). rewrite H in H0. destruct H0.
  - intro H. destruct (tuple_matches 0 ms args) as [|p r] eqn:E; auto. exfalso.
    assert (I : In p (tuple_matches 0 ms args)) by (rewrite E; left; auto). apply tuple_matches_in in I. destruct I as (q & -> & m & a & H1 & H2 & H3).
    rewrite (H _ _ _ H1 H2) in H3. discriminate.
Qed.

(** *** the loop over (checkin, matchers) pairs *)
Section Scan.
Context {V : Type}.
Variable aborts greedy : bool.
Variable args : list V.
Definition acc (z : checkin * list (V -> bool)) : bool := match tuple_matches 0 (snd z) args with [] => true | _ => false end.
Fixpoint scanz (zs : list (checkin * list (V -> bool))) (i idx : nat) (off : option nat) (reps : list report) : scanned :=
  match zs with
  | [] => mkscanned idx off reps false
  | z :: zs' =>
      if acc z then
        if is_saturated (fst z) || negb (insufficient (fst z) || greedy) then scanz zs' (S i) i (Some i) reps
        else mkscanned i (Some i) reps false
      else match off with
           | Some _ => mkscanned idx off reps false
           | None => if is_satisfied (fst z) then scanz zs' (S i) idx off reps
                     else if aborts then mkscanned idx off (reps ++ [Mismatch i (tuple_matches 0 (snd z) args)]) true
                     else scanz zs' (S i) idx off (reps ++ [Mismatch i (tuple_matches 0 (snd z) args)])
           end
  end.
Lemma scan_scanz : forall cs ms i idx off reps, scan aborts greedy cs ms args i idx off reps = scanz (combine cs ms) i idx off reps.
Proof.
  induction cs as [|c cs IH]; intros [|m ms] i idx off reps; cbn [scan combine scanz]; auto.
  unfold acc at 1. cbn [fst snd]. destruct (tuple_matches 0 m args) as [|p bad].
  - destruct (is_saturated c), (insufficient c), greedy; cbn [orb negb]; auto.
  - destruct off; auto. destruct (is_satisfied c); auto. destruct aborts; auto.
Qed.

Definition passable (c : checkin) : bool := is_saturated c || negb (insufficient c || greedy).

Lemma scanz_some : forall zs i0 reps, exists n,
  scanz zs (S i0) i0 (Some i0) reps = mkscanned (i0 + n) (Some (i0 + n)%nat) reps false /\ (n <= length zs)%nat /\
  (forall j z, (j < n)%nat -> nth_error zs j = Some z -> acc z = true) /\
  (forall j z, (S j < n)%nat -> nth_error zs j = Some z -> passable (fst z) = true) /\
  (forall z, nth_error zs n = Some z -> acc z = false \/ exists n' y, n = S n' /\ nth_error zs n' = Some y /\ passable (fst y) = false).
Proof.
  induction zs as [|z zs IH]; intros i0 reps; cbn [scanz].
  - exists 0%nat. rewrite Nat.add_0_r. split; [auto|]. split; [cbn; lia|]. split; [intros; lia|]. split; [intros; lia|]. intros z H. discriminate.
  - destruct (acc z) eqn:A.
    + fold (passable (fst z)). destruct (passable (fst z)) eqn:P.
      * destruct (IH (S i0) reps) as (n & E & L & H1 & H2 & H3). exists (S n). rewrite E. split; [replace (i0 + S n)%nat with (S i0 + n)%nat by lia; reflexivity|]. split; [cbn; lia|].
        split; [intros [|j] y Hj Hy; [cbn in Hy; congruence|apply (H1 j); auto; lia]|].
        split; [intros [|j] y Hj Hy; [cbn in Hy; congruence|apply (H2 j); auto; lia]|].
        intros y Hy. destruct (H3 y Hy) as [|(n' & w & -> & Hw & Q)]; [auto|]. right. exists (S n'), w. auto.
      * exists 1%nat. split; [replace (i0 + 1)%nat with (S i0) by lia; reflexivity|]. split; [cbn; lia|].
        split; [intros [|j] y Hj Hy; [cbn in Hy; congruence|lia]|]. split; [intros; lia|].
        intros y Hy. right. exists 0%nat, z. auto.
    + exists 0%nat. rewrite Nat.add_0_r. split; [auto|]. split; [cbn; lia|]. split; [intros; lia|]. split; [intros; lia|].
      intros y H. cbn in H. injection H as <-. auto.
Qed.

Inductive scan_result (zs : list (checkin * list (V -> bool))) (i idx : nat) (reps : list report) : scanned -> Prop :=
| sr_abort : forall p z, aborts = true -> nth_error zs p = Some z -> acc z = false -> is_satisfied (fst z) = false ->
    (forall j y, (j < p)%nat -> nth_error zs j = Some y -> acc y = false /\ is_satisfied (fst y) = true) ->
    scan_result zs i idx reps (mkscanned idx None (reps ++ [Mismatch (i + p) (tuple_matches 0 (snd z) args)]) true)
| sr_none : forall reps', (forall j y, nth_error zs j = Some y -> acc y = false /\ (aborts = true -> is_satisfied (fst y) = true)) ->
    (forall r, In r reps' <-> exists j y, nth_error zs j = Some y /\ is_satisfied (fst y) = false /\ r = Mismatch (i + j) (tuple_matches 0 (snd y) args)) ->
    scan_result zs i idx reps (mkscanned idx None (reps ++ reps') false)
| sr_some : forall p n reps',
    (forall j y, (j < p)%nat -> nth_error zs j = Some y -> acc y = false /\ (aborts = true -> is_satisfied (fst y) = true)) ->
    (forall r, In r reps' <-> exists j y, (j < p)%nat /\ nth_error zs j = Some y /\ is_satisfied (fst y) = false /\ r = Mismatch (i + j) (tuple_matches 0 (snd y) args)) ->
    (p + n < length zs)%nat ->
    (forall j y, (p <= j <= p + n)%nat -> nth_error zs j = Some y -> acc y = true) ->
    (forall j y, (p <= j < p + n)%nat -> nth_error zs j = Some y -> passable (fst y) = true) ->
    (forall y z, nth_error zs (p + n) = Some y -> passable (fst y) = true -> nth_error zs (S (p + n)) = Some z -> acc z = false) ->
    scan_result zs i idx reps (mkscanned (i + (p + n)) (Some (i + (p + n))%nat) (reps ++ reps') false).

Lemma scanz_none : forall zs i idx reps, scan_result zs i idx reps (scanz zs i idx None reps).
Proof.
  induction zs as [|z zs IH]; intros i idx reps; cbn [scanz].
  - rewrite <- (app_nil_r reps) at 2. apply sr_none.
    + intros [|j] y H; discriminate.
    + intro r. split; [intros []|]. intros ([|j] & y & H & _); discriminate.
  - destruct (acc z) eqn:A.
    + fold (passable (fst z)). destruct (passable (fst z)) eqn:P.
      * destruct (scanz_some zs i reps) as (n & E & L & H1 & H2 & H3). rewrite E. rewrite <- (app_nil_r reps) at 2.
        apply (sr_some (z :: zs) i idx reps 0%nat n).
        -- intros; lia.
        -- intro r. split; [intros []|]. intros (j & y & Hj & _). lia.
        -- cbn [length]. lia.
        -- intros [|j] y Hj Hy; [cbn in Hy; congruence|]. apply (H1 j); auto. lia.
        -- intros [|j] y Hj Hy; [cbn in Hy; congruence|]. apply (H2 j); auto. lia.
        -- intros y w Hy Py Hw. cbn [Nat.add nth_error] in Hw. destruct (H3 w Hw) as [|(n' & x & -> & Hx & Q)]; [auto|].
           cbn [Nat.add nth_error] in Hy. rewrite Hx in Hy. injection Hy as <-. congruence.
      * rewrite <- (app_nil_r reps) at 2. replace (mkscanned i (Some i)) with (mkscanned (i + (0 + 0)) (Some (i + (0 + 0))%nat)) by (rewrite !Nat.add_0_r; reflexivity).
        apply sr_some.
        -- intros; lia.
        -- intro r. split; [intros []|]. intros (j & y & Hj & _). lia.
        -- cbn [length]. lia.
        -- intros [|j] y Hj Hy; [cbn in Hy; congruence|lia].
        -- intros; lia.
        -- intros y w Hy Py Hw. cbn in Hy. injection Hy as <-. congruence.
    + destruct (is_satisfied (fst z)) eqn:S1.
      * destruct (IH (S i) idx reps) as [p y Ab Hy Ay Sy Hp|reps' H1 H2|p n reps' H1 H2 L H3 H4 H5].
        -- replace (S i + p)%nat with (i + S p)%nat by lia. apply (sr_abort _ _ _ _ (S p) y); auto.
           intros [|j] w Hj Hw; [cbn in Hw; injection Hw as <-; auto|]. apply (Hp j); auto. lia.
        -- apply sr_none.
           ++ intros [|j] w Hw; [cbn in Hw; injection Hw as <-; auto|]. apply (H1 j); auto.
           ++ intro r. rewrite H2. split.
              ** intros (j & w & Hw & Sw & ->). exists (S j), w. split; auto. split; auto. f_equal. lia.
              ** intros ([|j] & w & Hw & Sw & ->); [cbn in Hw; congruence|]. exists j, w. split; auto. split; auto. f_equal. lia.
        -- replace (S i + (p + n))%nat with (i + (S p + n))%nat by lia. apply sr_some.
           ++ intros [|j] w Hj Hw; [cbn in Hw; injection Hw as <-; auto|]. apply (H1 j); auto. lia.
           ++ intro r. rewrite H2. split.
              ** intros (j & w & Hj & Hw & Sw & ->). exists (S j), w. split; [lia|]. split; auto. split; auto. f_equal. lia.
              ** intros ([|j] & w & Hj & Hw & Sw & ->); [cbn in Hw; congruence|]. exists j, w. split; [lia|]. split; auto. split; auto. f_equal. lia.
           ++ cbn [length]. lia.
           ++ intros [|j] w Hj Hw; [lia|]. apply (H3 j); auto. lia.
           ++ intros [|j] w Hj Hw; [lia|]. apply (H4 j); auto. lia.
           ++ exact H5.
      * destruct aborts eqn:Ab.
        -- replace (Mismatch i) with (Mismatch (i + 0)) by (f_equal; lia). apply (sr_abort _ _ _ _ 0%nat z); auto. intros; lia.
        -- destruct (IH (S i) idx (reps ++ [Mismatch i (tuple_matches 0 (snd z) args)])) as [p y Abt Hy Ay Sy Hp|reps' H1 H2|p n reps' H1 H2 L H3 H4 H5].
           ++ congruence.
           ++ rewrite <- app_assoc. apply sr_none.
              ** intros [|j] w Hw; [cbn in Hw; injection Hw as <-; split; auto; congruence|]. apply (H1 j); auto.
              ** intro r. cbn [app In]. rewrite H2. split.
                 --- intros [<-|(j & w & Hw & Sw & ->)]; [exists 0%nat, z; split; auto; split; auto; f_equal; lia|]. exists (S j), w. split; auto. split; auto. f_equal. lia.
                 --- intros ([|j] & w & Hw & Sw & ->); [left; cbn in Hw; injection Hw as <-; f_equal; lia|]. right. exists j, w. split; auto. split; auto. f_equal. lia.
           ++ rewrite <- app_assoc. replace (S i + (p + n))%nat with (i + (S p + n))%nat by lia. apply sr_some.
              ** intros [|j] w Hj Hw; [cbn in Hw; injection Hw as <-; split; auto; congruence|]. apply (H1 j); auto. lia.
              ** intro r. cbn [app In]. rewrite H2. split.
                 --- intros [<-|(j & w & Hj & Hw & Sw & ->)]; [exists 0%nat, z; split; [lia|]; split; auto; split; auto; f_equal; lia|]. exists (S j), w. split; [lia|]. split; auto. split; auto. f_equal. lia.
                 --- intros ([|j] & w & Hj & Hw & Sw & ->); [left; cbn in Hw; injection Hw as <-; f_equal; lia|]. right. exists j, w. split; [lia|]. split; auto. split; auto. f_equal. lia.
              ** cbn [length]. lia.
              ** intros [|j] w Hj Hw; [lia|]. apply (H3 j); auto. lia.
              ** intros [|j] w Hj Hw; [lia|]. apply (H4 j); auto. lia.
              ** exact H5.
Qed.
End Scan.
