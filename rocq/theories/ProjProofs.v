From Coq Require Import List ZArith NArith Bool Lia.
From Verif Require Import FailModel MatcherModel MatcherProofs ProjModel ProjSpec.
Import ListNotations.
Local Open Scope Z_scope.

Section ind.
  Variable P : pmatcher -> Prop.
  Hypothesis HBase : forall q, P (PBase q).
  Hypothesis HPoly : forall f m, P m -> P (PPoly f m).
  Hypothesis HNot : forall m, P m -> P (PNot m).
  Hypothesis HAnd : forall l r, P l -> P r -> P (PAnd l r).
  Hypothesis HOr : forall l r, P l -> P r -> P (POr l r).
  Hypothesis HAll : forall l, Forall P l -> P (PAllOf l).
  Hypothesis HAny : forall l, Forall P l -> P (PAnyOf l).
  Hypothesis HPointee : forall m, P m -> P (PPointee m).
  Hypothesis HMember : forall g m, P m -> P (PMember g m).
  Hypothesis HCast : forall g m, P m -> P (PCastOf g m).
  Hypothesis HEvery : forall m, P m -> P (PEvery m).
  Hypothesis HHas : forall m, P m -> P (PHas m).
  Fixpoint pmatcher_all (m : pmatcher) : P m :=
    match m with
    | PBase q => HBase q
    | PPoly f m => HPoly f m (pmatcher_all m)
    | PNot m => HNot m (pmatcher_all m)
    | PAnd l r => HAnd l r (pmatcher_all l) (pmatcher_all r)
    | POr l r => HOr l r (pmatcher_all l) (pmatcher_all r)
    | PAllOf l => HAll l ((fix go l := match l return Forall P l with [] => Forall_nil _ | m :: r => Forall_cons _ (pmatcher_all m) (go r) end) l)
    | PAnyOf l => HAny l ((fix go l := match l return Forall P l with [] => Forall_nil _ | m :: r => Forall_cons _ (pmatcher_all m) (go r) end) l)
    | PPointee m => HPointee m (pmatcher_all m)
    | PMember g m => HMember g m (pmatcher_all m)
    | PCastOf g m => HCast g m (pmatcher_all m)
    | PEvery m => HEvery m (pmatcher_all m)
    | PHas m => HHas m (pmatcher_all m)
    end.
End ind.

(** the contexts that arise without ranges and numbers of times *)
Definition plainctx (c : ctx) : Prop := c_rs c = 0 /\ c_re c = range_max /\ c_times c = 1.
(** the outcome of a match says whether the value is what is meant *)
Definition told (c : ctx) (P : Prop) (o : option fail) : Prop := exists f b, o = Some f /\ (b = true <-> P) /\ isnull f = eqb b (negb (c_neg c)).
Definition right (m : pmatcher) : Prop := forall c v, plainctx c -> simple m ->
  (safe (c_ci c) (c_sq c) m v -> told c (means (c_ci c) (c_sq c) m v) (pmatches m c v)) /\
  (forall f, pmatches m c v = Some f -> safe (c_ci c) (c_sq c) m v).
Lemma pos_told c P o : c_neg c = false -> told c P o -> exists f, o = Some f /\ (isnull f = true <-> P).
Proof. intros E (f & b & -> & H & I). exists f. split; [reflexivity|]. rewrite I, E. destruct b; exact H. Qed.
Lemma conclude_told c (P : Prop) b f : (b = true <-> P) -> told c P (Some (conclude c b f)).
Proof.
  intro H. exists (conclude c b f), b. split; [reflexivity|]. split; [exact H|]. unfold conclude, fit. destruct (eqb b (negb (c_neg c))) eqn:E; [reflexivity|].
  destruct (append_child (new_fail 0) f) eqn:A; [discriminate|reflexivity].
Qed.
Lemma plain_neg c b : plainctx c -> plainctx (upd_neg c b). Proof. exact (fun H => H). Qed.
Lemma plain_clear c : plainctx c -> plainctx (clear_size c). Proof. intros (A & B & D). repeat split; auto. Qed.
Lemma plain_inner c : plainctx c -> plainctx (inner c). Proof. intros (A & B & D). repeat split; auto. Qed.
Lemma sub_isnull a b : isnull (append_subling a b) = isnull a && isnull b.
Proof. destruct a; reflexivity. Qed.
Lemma seq_isnull f i : isnull (set_seqno f i) = isnull f. Proof. destruct f; reflexivity. Qed.
(** within a positive context *)
Lemma right_pos m c v : right m -> plainctx c -> simple m -> c_neg c = false ->
  (safe (c_ci c) (c_sq c) m v -> exists f, pmatches m c v = Some f /\ (isnull f = true <-> means (c_ci c) (c_sq c) m v)) /\
  (forall f, pmatches m c v = Some f -> safe (c_ci c) (c_sq c) m v /\ (isnull f = true <-> means (c_ci c) (c_sq c) m v)).
Proof.
  intros R P S N. destruct (R c v P S) as [R1 R2]. split.
  - intro H. exact (pos_told c _ _ N (R1 H)).
  - intros f E. assert (H := R2 f E). split; [exact H|]. destruct (pos_told _ _ _ N (R1 H)) as (g & E2 & I). congruence.
Qed.
Lemma in_place c i : plainctx c -> c_in c (Z.of_nat i) = (Z.of_nat i <? 5413722).
Proof. intros (A & B & _). unfold c_in. rewrite A, B. unfold range_max. rewrite (proj2 (Z.leb_le 0 (Z.of_nat i))) by lia. reflexivity. Qed.

Lemma right_all l : Forall right l -> right (PAllOf l).
Proof.
  intros F c v Pc S. cbn [simple means safe pmatches] in *.
  set (c' := upd_neg c false). assert (Pc' : plainctx c') by exact Pc.
  set (go := fix go (i : Z) (fails : fail) (l : list pmatcher) : option fail := match l with [] => Some fails | m1 :: r => match pmatches m1 c' v with Some f => go (i + 1) (append_subling fails (set_seqno f i)) r | None => None end end).
  assert (G : forall i fails,
    ((fix all (l : list pmatcher) : Prop := match l with [] => True | m1 :: r => safe (c_ci c) (c_sq c) m1 v /\ all r end) l ->
      exists f, go i fails l = Some f /\ (isnull f = true <-> isnull fails = true /\ (fix all (l : list pmatcher) : Prop := match l with [] => True | m1 :: r => means (c_ci c) (c_sq c) m1 v /\ all r end) l)) /\
    (forall f, go i fails l = Some f -> (fix all (l : list pmatcher) : Prop := match l with [] => True | m1 :: r => safe (c_ci c) (c_sq c) m1 v /\ all r end) l)).
  { revert S. induction F as [|m r Rm F IH]; intros S i fails.
    - split; [intros _; exists fails; split; [reflexivity|tauto]|intros; exact Logic.I].
    - destruct S as [Sm Sr]. destruct (right_pos m c' v Rm Pc' Sm eq_refl) as [Q1 Q2]. split.
      + intros [H1 H2]. destruct (Q1 H1) as (f & E & I). destruct (proj1 (IH Sr (i + 1) (append_subling fails (set_seqno f i))) H2) as (f2 & E2 & I2).
        exists f2. cbn [go]. rewrite E. split; [exact E2|]. rewrite I2, sub_isnull, seq_isnull, andb_true_iff. change (c_ci c') with (c_ci c) in I. change (c_sq c') with (c_sq c) in I. tauto.
      + intros f E. cbn [go] in E. destruct (pmatches m c' v) as [f1|] eqn:E1; [|discriminate]. split; [exact (proj1 (Q2 f1 eq_refl))|]. eapply (proj2 (IH Sr _ _)); exact E. }
  destruct (G 0 Null) as [G1 G2]. split.
  - intro H. destruct (G1 H) as (f & E & I). rewrite E. apply conclude_told. cbn [isnull] in I. tauto.
  - intros f E. destruct (go 0 Null l) as [f1|] eqn:E1; [|discriminate]. exact (G2 f1 eq_refl).
Qed.

Lemma right_any l : Forall right l -> right (PAnyOf l).
Proof.
  intros F c v Pc S. cbn [simple means safe pmatches] in *.
  set (c' := upd_neg c false). assert (Pc' : plainctx c') by exact Pc.
  set (go := fix go (i : Z) (fails : fail) (l : list pmatcher) : option (bool * fail) := match l with [] => Some (false, fails) | m1 :: r => match pmatches m1 c' v with Some f => if isnull f then Some (true, fails) else go (i + 1) (append_subling fails (set_seqno f i)) r | None => None end end).
  assert (G : forall i fails,
    ((fix all (l : list pmatcher) : Prop := match l with [] => True | m1 :: r => safe (c_ci c) (c_sq c) m1 v /\ (means (c_ci c) (c_sq c) m1 v \/ all r) end) l ->
      exists b f, go i fails l = Some (b, f) /\ (b = true <-> (fix any (l : list pmatcher) : Prop := match l with [] => False | m1 :: r => means (c_ci c) (c_sq c) m1 v \/ any r end) l)) /\
    (forall f, go i fails l = Some f -> (fix all (l : list pmatcher) : Prop := match l with [] => True | m1 :: r => safe (c_ci c) (c_sq c) m1 v /\ (means (c_ci c) (c_sq c) m1 v \/ all r) end) l)).
  { revert S. induction F as [|m r Rm F IH]; intros S i fails.
    - split; [intros _; exists false, fails; split; [reflexivity|split; [discriminate|contradiction]]|intros; exact Logic.I].
    - destruct S as [Sm Sr]. destruct (right_pos m c' v Rm Pc' Sm eq_refl) as [Q1 Q2].
      change (c_ci c') with (c_ci c) in Q1, Q2. change (c_sq c') with (c_sq c) in Q1, Q2. split.
      + intros [H1 H2]. destruct (Q1 H1) as (f & E & I). cbn [go]. rewrite E. destruct (isnull f).
        * exists true, fails. split; [reflexivity|]. tauto.
        * destruct H2 as [H2|H2]; [apply I in H2; discriminate|].
          destruct (proj1 (IH Sr (i + 1) (append_subling fails (set_seqno f i))) H2) as (b & f2 & E2 & I2). exists b, f2. split; [exact E2|]. rewrite I2. split; [auto|]. intros [M|M]; [apply I in M; discriminate|exact M].
      + intros f E. cbn [go] in E. destruct (pmatches m c' v) as [f1|] eqn:E1; [|discriminate]. destruct (Q2 f1 eq_refl) as [Sf I]. split; [exact Sf|].
        destruct (isnull f1); [left; tauto|right]. eapply (proj2 (IH Sr _ _)); exact E. }
  destruct (G 0 Null) as [G1 G2]. split.
  - intro H. destruct (G1 H) as (b & f & E & I). rewrite E. apply conclude_told. exact I.
  - intros f E. destruct (go 0 Null l) as [f1|] eqn:E1; [|discriminate]. exact (G2 f1 eq_refl).
Qed.

Lemma right_every m : right m -> right (PEvery m).
Proof.
  intros Rm c v Pc S. cbn [simple means safe pmatches] in *.
  assert (Pi := plain_inner c Pc). assert (Q := fun x => right_pos m (inner c) x Rm Pi S eq_refl).
  change (c_ci (inner c)) with (c_ci c) in Q. change (c_sq (inner c)) with (c_sq c) in Q.
  assert (G : forall l i fails,
    ((forall k x, nth_error l k = Some x -> Z.of_nat (i + k) < 5413722 -> safe (c_ci c) (c_sq c) m x) ->
      exists f, every_items (c_in c) (pmatches m (inner c)) (Z.of_nat i) fails l = Some f /\
        (isnull f = true <-> isnull fails = true /\ forall k x, nth_error l k = Some x -> Z.of_nat (i + k) < 5413722 -> means (c_ci c) (c_sq c) m x)) /\
    (forall f, every_items (c_in c) (pmatches m (inner c)) (Z.of_nat i) fails l = Some f -> forall k x, nth_error l k = Some x -> Z.of_nat (i + k) < 5413722 -> safe (c_ci c) (c_sq c) m x)).
  { induction l as [|a r IH]; intros i fails.
    - split; [intros _; exists fails; split; [reflexivity|]|intros f _ k x E; destruct k; discriminate].
      split; [intro H; split; [exact H|intros k x E; destruct k; discriminate]|tauto].
    - cbn [every_items]. rewrite (in_place c i Pc). replace (Z.of_nat i + 1) with (Z.of_nat (Datatypes.S i)) by lia.
      destruct (Q a) as [Q1 Q2]. destruct (Z.of_nat i <? 5413722) eqn:B.
      + apply Z.ltb_lt in B. split.
        * intro H. destruct (Q1 (H 0%nat a eq_refl ltac:(lia))) as (f & E & I). rewrite E.
          destruct (proj1 (IH (Datatypes.S i) (append_subling fails f))) as (f2 & E2 & I2). { intros k x N L. apply (H (Datatypes.S k) x N). lia. }
          exists f2. split; [exact E2|]. rewrite I2, sub_isnull, andb_true_iff. split.
          -- intros [[A1 A2] A3]. split; [exact A1|]. intros [|k] x N L; [injection N as <-; tauto|]. apply (A3 k x N). lia.
          -- intros [A1 A2]. split; [split; [exact A1|apply I; apply (A2 0%nat a eq_refl); lia]|]. intros k x N L. apply (A2 (Datatypes.S k) x N). lia.
        * intros f E. destruct (pmatches m (inner c) a) as [f1|] eqn:E1; [|discriminate]. intros [|k] x N L; [injection N as <-; exact (proj1 (Q2 f1 eq_refl))|].
          eapply (proj2 (IH _ _)); [exact E|exact N|lia].
      + apply Z.ltb_ge in B. split.
        * intro H. destruct (proj1 (IH (Datatypes.S i) fails)) as (f2 & E2 & I2). { intros k x N L. apply (H (Datatypes.S k) x N). lia. }
          exists f2. split; [exact E2|]. rewrite I2. split; (intros [A1 A2]; split; [exact A1|]).
          -- intros k x N L. exfalso. lia.
          -- intros k x N L. apply (A2 (Datatypes.S k) x N). lia.
        * intros f E k x N L. exfalso. lia. }
  destruct (G (items v) 0%nat Null) as [G1 G2]. cbn [Z.of_nat Nat.add] in G1, G2. split.
  - intro H. destruct (G1 (fun k x N L => H k x (conj N L))) as (f & E & I). rewrite E. apply conclude_told. rewrite I. split; [intros [_ A] k x [N L]; eauto|intro A; split; [reflexivity|intros k x N L; exact (A k x (conj N L))]].
  - intros f E. destruct (every_items (c_in c) (pmatches m (inner c)) 0 Null (items v)) as [f1|] eqn:E1; [|discriminate]. intros k x [N L]. eauto.
Qed.

Lemma right_has m : right m -> right (PHas m).
Proof.
  intros Rm c v Pc S. cbn [simple means safe pmatches] in *.
  assert (Pi := plain_inner c Pc). assert (Q := fun x => right_pos m (inner c) x Rm Pi S eq_refl).
  change (c_ci (inner c)) with (c_ci c) in Q. change (c_sq (inner c)) with (c_sq c) in Q.
  destruct Pc as (P1 & P2 & P3). assert (Pc : plainctx c) by (repeat split; auto). rewrite P3. 
  set (M := means (c_ci c) (c_sq c) m) in *. set (U := safe (c_ci c) (c_sq c) m) in *.
  assert (G : forall l i,
    ((forall k x, nth_error l k = Some x -> Z.of_nat (i + k) < 5413722 -> (forall j y, nth_error l j = Some y -> Z.of_nat (i + j) < 5413722 -> (j < k)%nat -> ~ M y) -> U x) ->
      exists n, has_items (c_in c) (pmatches m (inner c)) 1 (Z.of_nat i) 0 l = Some n /\
        ((1 <=? n) = true <-> exists k x, (nth_error l k = Some x /\ Z.of_nat (i + k) < 5413722) /\ M x)) /\
    (forall n, has_items (c_in c) (pmatches m (inner c)) 1 (Z.of_nat i) 0 l = Some n ->
      forall k x, nth_error l k = Some x -> Z.of_nat (i + k) < 5413722 -> (forall j y, nth_error l j = Some y -> Z.of_nat (i + j) < 5413722 -> (j < k)%nat -> ~ M y) -> U x)).
  { induction l as [|a r IH]; intro i.
    - split; [intros _; exists 0; split; [reflexivity|]|intros n _ k x E; destruct k; discriminate].
      split; [discriminate|]. intros (k & x & [N _] & _). destruct k; discriminate.
    - cbn [has_items]. rewrite (in_place c i Pc). replace (Z.of_nat i + 1) with (Z.of_nat (Datatypes.S i)) by lia. change (1 <=? 0 + 1) with true. cbn iota.
      destruct (Q a) as [Q1 Q2]. destruct (Z.of_nat i <? 5413722) eqn:B.
      + apply Z.ltb_lt in B. split.
        * intro H. destruct (Q1 (H 0%nat a eq_refl ltac:(lia) ltac:(intros; lia))) as (f & E & I). rewrite E. destruct (isnull f).
          -- exists (0 + 1). split; [reflexivity|]. split; [|reflexivity]. intros _. exists 0%nat, a. split; [split; [reflexivity|lia]|tauto].
          -- assert (NM : ~ M a) by (intro X; apply I in X; discriminate).
             destruct (proj1 (IH (Datatypes.S i))) as (n & E2 & I2).
             { intros k x N L Z. apply (H (Datatypes.S k) x N ltac:(lia)). intros [|j] y Ny Ly Lj; [injection Ny as <-; exact NM|]. apply (Z j y Ny); lia. }
             exists n. split; [exact E2|]. rewrite I2. split; intros (k & x & [N L] & Mx).
             ++ exists (Datatypes.S k), x. split; [split; [exact N|lia]|exact Mx].
             ++ destruct k as [|k]; [injection N as <-; contradiction|]. exists k, x. split; [split; [exact N|lia]|exact Mx].
        * intros n E k x N L Z. destruct (pmatches m (inner c) a) as [f|] eqn:E1; [|discriminate]. destruct (Q2 f eq_refl) as [Sa I].
          destruct k as [|k]; [injection N as <-; exact Sa|]. destruct (isnull f) eqn:If.
          -- exfalso. apply (Z 0%nat a eq_refl); [lia|lia|]. tauto.
          -- eapply (proj2 (IH (Datatypes.S i))); [exact E|exact N|lia|]. intros j y Ny Ly Lj. apply (Z (Datatypes.S j) y Ny); lia.
      + apply Z.ltb_ge in B. split.
        * intro H. destruct (proj1 (IH (Datatypes.S i))) as (n & E2 & I2). { intros k x N L Z. exfalso. lia. }
          exists n. split; [exact E2|]. rewrite I2. split; intros (k & x & [N L] & Mx); exfalso; lia.
        * intros n E k x N L. exfalso. lia. }
  destruct (G (items v) 0%nat) as [G1 G2]. cbn [Z.of_nat Nat.add] in G1, G2. split.
  - intro H. destruct G1 as (n & E & I). { intros k x N L Z. apply (H k x (conj N L)). intros j y [Ny Ly] Lj. exact (Z j y Ny Ly Lj). }
    rewrite E. exists (if fit c (1 <=? n) then Null else new_fail 0), (1 <=? n). split; [reflexivity|]. split.
    + rewrite I. reflexivity.
    + unfold fit. destruct (eqb (1 <=? n) (negb (c_neg c))); reflexivity.
  - intros f E. destruct (has_items (c_in c) (pmatches m (inner c)) 1 0 0 (items v)) as [n|] eqn:E1; [|discriminate]. intros k x [N L] Z. eapply (G2 n eq_refl k x N L). intros j y Ny Ly Lj. exact (Z j y (conj Ny Ly) Lj).
Qed.

Lemma everything_right : forall m, right m.
Proof.
  apply pmatcher_all; auto using right_all, right_any, right_every, right_has.
  - intros q c v Pc S. cbn. split; [|auto]. intros _. exists (if fit c (q (c_ci c) (c_sq c) v) then Null else new_fail 1), (q (c_ci c) (c_sq c) v). split; [reflexivity|]. split; [reflexivity|].
    unfold fit. destruct (eqb _ _); reflexivity.
  - intros f m Rm c v Pc [Sf S]. cbn [means safe pmatches]. destruct Sf as (F1 & F2 & F3).
    assert (Pf : plainctx (configure f c)). { destruct Pc as (A & B & D). unfold plainctx, configure. rewrite F1, F2, F3. cbn. rewrite A, B, D. auto. }
    destruct (Rm (configure f c) v Pf S) as [R1 R2]. cbn [configure c_ci c_sq] in R1, R2. split; [|exact R2].
    intro H. destruct (R1 H) as (g & b & E & I & J). cbn [configure c_neg] in J. exists g. destruct (f_neg f); cbn [xorb negb] in J.
    + exists (negb b). split; [exact E|]. split; [|rewrite J; destruct b, (c_neg c); reflexivity]. destruct b; cbn [negb]; split; intro X; try discriminate; try reflexivity; [|]; [exfalso; apply X; tauto|intro Y; apply I in Y; discriminate].
    + exists b. split; [exact E|]. split; [exact I|]. rewrite J. destruct (c_neg c); reflexivity.
  - intros m Rm c v Pc S. cbn [means safe pmatches simple] in *. destruct (Rm (upd_neg c (negb (c_neg c))) v Pc S) as [R1 R2]. cbn [upd_neg c_ci c_sq] in R1, R2. split; [|exact R2].
    intro H. destruct (R1 H) as (g & b & E & I & J). cbn [upd_neg c_neg] in J. exists g, (negb b). split; [exact E|]. split; [|rewrite J; destruct b, (c_neg c); reflexivity].
    destruct b; cbn [negb]; split; intro X; try discriminate; try reflexivity; [exfalso; apply X; tauto|intro Y; apply I in Y; discriminate].
  - intros l r Rl Rr c v Pc [Sl Sr]. cbn [means safe pmatches].
    destruct (right_pos l (upd_neg c false) v Rl Pc Sl eq_refl) as [L1 L2]. destruct (right_pos r (upd_neg c false) v Rr Pc Sr eq_refl) as [M1 M2].
    cbn [upd_neg c_ci c_sq] in L1, L2, M1, M2. split.
    + intros [H1 H2]. destruct (L1 H1) as (f1 & E1 & I1). destruct (M1 H2) as (f2 & E2 & I2). rewrite E1, E2. apply conclude_told. rewrite !sub_isnull. cbn [isnull andb]. rewrite andb_true_iff. tauto.
    + intros f E. destruct (pmatches l (upd_neg c false) v) as [f1|]; [|discriminate]. destruct (pmatches r (upd_neg c false) v) as [f2|]; [|discriminate]. split; [exact (proj1 (L2 f1 eq_refl))|exact (proj1 (M2 f2 eq_refl))].
  - intros l r Rl Rr c v Pc [Sl Sr]. cbn [means safe pmatches].
    destruct (right_pos l (upd_neg c false) v Rl Pc Sl eq_refl) as [L1 L2]. destruct (right_pos r (upd_neg c false) v Rr Pc Sr eq_refl) as [M1 M2].
    cbn [upd_neg c_ci c_sq] in L1, L2, M1, M2. split.
    + intros [H1 H2]. destruct (L1 H1) as (f1 & E1 & I1). destruct (M1 H2) as (f2 & E2 & I2). rewrite E1, E2. apply conclude_told. rewrite orb_true_iff. tauto.
    + intros f E. destruct (pmatches l (upd_neg c false) v) as [f1|]; [|discriminate]. destruct (pmatches r (upd_neg c false) v) as [f2|]; [|discriminate]. split; [exact (proj1 (L2 f1 eq_refl))|exact (proj1 (M2 f2 eq_refl))].
  - intros m Rm c v Pc S. cbn [means safe pmatches simple] in *. split.
    + intros (x & -> & H). destruct (proj1 (Rm (clear_size c) x (plain_clear c Pc) S) H) as (f & b & E & I & J). cbn [clear_size c_ci c_sq c_neg] in *.
      exists f, b. split; [exact E|]. split; [|exact J]. rewrite I. split; [intro X; exists x; auto|]. intros (y & Ey & X). injection Ey as <-. exact X.
    + intros f E. destruct v as [| [x|] | |]; try discriminate. exists x. split; [reflexivity|]. exact (proj2 (Rm (clear_size c) x (plain_clear c Pc) S) f E).
  - intros g m Rm c v Pc S. cbn [means safe pmatches simple] in *. 
    assert (W : forall o, v = Ptr (Some o) \/ (v = o /\ forall p, v <> Ptr p) <-> pointer_if v = Some o).
    { intro o. assert (K : forall w, (forall p, w <> Ptr p) -> (w = Ptr (Some o) \/ (w = o /\ forall p, w <> Ptr p) <-> Some w = Some o)).
      { intros w N. split; [intros [X|[X _]]; [exfalso; eapply N; exact X|congruence]|]. intros [= <-]. auto. }
      destruct v as [a|p|l|l]; cbn [pointer_if]; try (apply K; discriminate).
      split; [intros [X|[_ X]]; [congruence|exfalso; eapply X; reflexivity]|]. intros ->. auto. }
    split.
    + intros (o & O & H). apply W in O. rewrite O. destruct (proj1 (Rm c (g o) Pc S) H) as (f & b & E & I & J). exists f, b. split; [exact E|]. split; [|exact J]. rewrite I.
      split; [intro X; exists o; split; [apply W; exact O|exact X]|]. intros (y & Ey & X). apply W in Ey. rewrite O in Ey. injection Ey as <-. exact X.
    + intros f E. destruct (pointer_if v) as [o|] eqn:O; [|discriminate]. exists o. split; [apply W; reflexivity|]. exact (proj2 (Rm c (g o) Pc S) f E).
  - intros g m Rm c v Pc S. exact (Rm c (g v) Pc S).
Qed.

Lemma verdict m v : simple m -> safe false false m v -> (accepts m v <-> means false false m v) /\ (rejects m v <-> ~ means false false m v).
Proof.
  intros S H. assert (P0 : plainctx ctx0) by (repeat split). destruct (pos_told ctx0 _ _ eq_refl (proj1 (everything_right m ctx0 v P0 S) H)) as (f & E & I). cbn [ctx0 c_ci c_sq] in I.
  unfold accepts, rejects. rewrite E. split; split.
  - intros [= ->]. apply I. reflexivity.
  - intro X. apply I in X. apply isnull_eq in X. subst f. reflexivity.
  - intros (g & [= <-] & N) X. apply I in X. apply isnull_eq in X. contradiction.
  - intro X. exists f. split; [reflexivity|]. intros ->. apply X, I. reflexivity.
Qed.
Lemma crash m v : simple m -> (crashes m v <-> ~ safe false false m v).
Proof.
  intro S. assert (P0 : plainctx ctx0) by (repeat split). destruct (everything_right m ctx0 v P0 S) as [R1 R2]. cbn [ctx0 c_ci c_sq] in R1, R2. unfold crashes. split.
  - intros E H. destruct (R1 H) as (f & b & E2 & _). congruence.
  - intro H. destruct (pmatches m ctx0 v) as [f|] eqn:E; [|reflexivity]. exfalso. apply H. exact (R2 f eq_refl).
Qed.

(** operators outside and inside *)
Lemma configure_twice f g c : f_rs f = -1 -> f_re f = -1 ->
  configure f (configure g c) = mkctx (xorb (f_neg f) (xorb (f_neg g) (c_neg c))) (f_ci f || (f_ci g || c_ci c)) (f_sq f || (f_sq g || c_sq c)) (c_rs (configure g c)) (c_re (configure g c)) (c_times c * f_times g * f_times f).
Proof. intros A B. unfold configure at 1. rewrite A, B. reflexivity. Qed.
Lemma ops_out o f c : In o [OpNot; OpCaseless; OpSquash] -> configure f (configure (apply_op flags0 o) c) = configure (apply_op f o) (configure flags0 c).
Proof.
  unfold configure. intros [<-|[<-|[<-|[]]]]; cbn -[Z.eqb Z.mul]; rewrite ?orb_false_l, ?orb_true_r, ?xorb_false_l, ?orb_assoc; f_equal; try lia.
  destruct (f_neg f), (c_neg c); reflexivity.
Qed.
Lemma ops_out_clear o f c : In o [OpNot; OpCaseless; OpSquash] -> configure f (clear_size (configure (apply_op flags0 o) c)) = configure (apply_op f o) (clear_size (configure flags0 c)).
Proof.
  unfold configure. intros [<-|[<-|[<-|[]]]]; cbn -[Z.eqb Z.mul]; rewrite ?orb_false_l, ?orb_true_r, ?xorb_false_l, ?orb_assoc; f_equal; try lia.
  destruct (f_neg f), (c_neg c); reflexivity.
Qed.
Lemma operators o K f m c v : In o [OpNot; OpCaseless; OpSquash] -> leads K ->
  pmatches (with_op o (poly (K (PPoly f m)))) c v = pmatches (poly (K (with_op o (PPoly f m)))) c v.
Proof.
  intros O [-> | [[g ->] | [g ->]]]; cbn [with_op poly pmatches].
  - destruct v as [| [x|] | |]; try reflexivity. rewrite ops_out_clear by exact O. reflexivity.
  - destruct (pointer_if v); [|reflexivity]. rewrite ops_out by exact O. reflexivity.
  - rewrite ops_out by exact O. reflexivity.
Qed.
Lemma range_flags o f c : is_range o -> simple_flags f -> configure f (configure (apply_op flags0 o) c) = configure (apply_op f o) (configure flags0 c).
Proof.
  intros O (A & B & D). destruct f as [rs re t n ci sq]. cbn in A, B, D. subst rs re t.
  assert (F : forall s e, configure (mkflags (-1) (-1) 1 n ci sq) (configure (mkflags s e 1 false false false) c) = configure (mkflags s e 1 n ci sq) (configure flags0 c)).
  { intros s e. unfold configure. cbn -[Z.eqb Z.mul]. destruct (negb (s =? -1) && negb (e =? -1)); cbn -[Z.eqb Z.mul]; rewrite ?Z.mul_1_r; reflexivity. }
  destruct O as [(s & e & ->) | [(e & ->) | (k & ->)]]; cbn [apply_op flags0 f_rs f_re f_times f_neg f_ci f_sq].
  - destruct (e =? -1); apply F.
  - apply F.
  - unfold configure. cbn -[Z.mul]. f_equal. lia.
Qed.
Lemma ranges o g f m c v : is_range o -> simple_flags f ->
  pmatches (with_op o (poly (PMember g (PPoly f m)))) c v = pmatches (poly (PMember g (with_op o (PPoly f m)))) c v /\
  pmatches (with_op o (poly (PCastOf g (PPoly f m)))) c v = pmatches (poly (PCastOf g (with_op o (PPoly f m)))) c v.
Proof.
  intros O S. cbn [with_op poly pmatches]. rewrite range_flags by auto. split; reflexivity.
Qed.
