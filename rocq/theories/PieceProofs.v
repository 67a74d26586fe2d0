From Coq Require Import List NArith ZArith Bool Lia Arith.
From Verif Require Import PieceModel PieceSpec.
Import ListNotations.
Local Open Scope N_scope.

(** ** not2n and mask2n *)
Lemma not2n_false : forall x, x < 2 ^ 32 -> (not2n x = false <-> x = 0 \/ pow2 x).
Proof.
  intros x Hx. unfold not2n, w32. rewrite negb_false_iff, N.eqb_eq.
  destruct (N.eq_dec x 0) as [->|Hn].
  - split; auto. 
  - assert (E : (x + (2 ^ 32 - 1)) mod 2 ^ 32 = x - 1).
    { replace (x + (2 ^ 32 - 1)) with ((x - 1) + 1 * 2 ^ 32) by lia. rewrite N.mod_add by discriminate. apply N.mod_small. lia. }
    rewrite E. pose proof (N.log2_spec x ltac:(lia)) as [L1 L2].
    set (l := N.log2 x) in *. split.
    + intro H. right. exists l. destruct (N.eq_dec x (2 ^ l)) as [|Hne]; auto. exfalso.
      assert (B1 : N.testbit x l = true) by (apply N.bit_log2; auto).
      assert (Hl : N.log2 (x - 1) = l) by (apply N.log2_unique; [lia|split; lia]).
      assert (B2 : N.testbit (x - 1) l = true) by (rewrite <- Hl; apply N.bit_log2; pose proof (N.pow_nonzero 2 l); lia).
      assert (B : N.testbit (N.land x (x - 1)) l = true) by (rewrite N.land_spec, B1, B2; auto).
      rewrite H in B. rewrite N.bits_0 in B. discriminate.
    + intros [?|[k Hk]]; [contradiction|]. subst x. rewrite N.sub_1_r, <- N.ones_equiv, N.land_ones.
      apply N.mod_same. apply N.pow_nonzero. discriminate.
Qed.

Definition window (l w y : N) : Prop :=
  forall i, (l + 1 <= i + w -> i <= l -> N.testbit y i = true) /\ (l < i -> N.testbit y i = false).

Lemma window_step : forall l w y, window l w y -> window l (2 * w) (N.lor y (N.shiftr y w)).
Proof.
  intros l w y H i. rewrite N.lor_spec, N.shiftr_spec' . split.
  - intros A B. destruct (N.le_gt_cases (l + 1) (i + w)) as [C|C].
    + rewrite (proj1 (H i)) by lia. auto.
    + rewrite (proj1 (H (i + w))) by lia. apply orb_true_r.
  - intro A. rewrite (proj2 (H i)) by lia. rewrite (proj2 (H (i + w))) by lia. auto.
Qed.

Lemma mask2n_ones : forall x, 0 < x -> x < 2 ^ 32 -> mask2n x + 1 = 2 ^ (N.log2 x + 1).
Proof.
  intros x H0 H1. set (l := N.log2 x).
  assert (Hl : l < 32) by (apply N.log2_lt_pow2; auto).
  assert (W1 : window l 1 x).
  { intro i. split.
    - intros A B. assert (i = l) by lia. subst i. apply N.bit_log2. lia.
    - intro A. apply N.bits_above_log2. auto. }
  pose proof (window_step _ _ _ W1) as W2. pose proof (window_step _ _ _ W2) as W3.
  pose proof (window_step _ _ _ W3) as W4. pose proof (window_step _ _ _ W4) as W5.
  pose proof (window_step _ _ _ W5) as W6.
  change (window l 32 (mask2n x)) in W6.
  assert (E : mask2n x = N.ones (l + 1)).
  { apply N.bits_inj. intro i. destruct (N.lt_ge_cases i (l + 1)) as [A|A].
    - rewrite N.ones_spec_low by auto. apply (proj1 (W6 i)); lia.
    - rewrite N.ones_spec_high by auto. apply (proj2 (W6 i)); lia. }
  rewrite E, N.ones_equiv. pose proof (N.pow_nonzero 2 (l + 1)). lia.
Qed.

Lemma pow2_le_lt : forall a b, 2 ^ a < 2 ^ b -> a < b.
Proof. intros a b H. apply N.pow_lt_mono_r_iff in H; auto. lia. Qed.

Lemma alignment_2n_ceiling : forall al, al < 2 ^ 32 -> pow2_ceiling al (alignment_2n al).
Proof.
  intros al Hal. unfold alignment_2n, w32. rewrite (N.mod_small al) by auto.
  assert (P8 : pow2 8) by (exists 3; reflexivity).
  destruct (not2n al) eqn:E.
  - assert (Hn : ~ (al = 0 \/ pow2 al)) by (rewrite <- not2n_false by auto; congruence).
    assert (Hp : 0 < al) by (destruct (N.eq_dec al 0); [exfalso; auto|lia]).
    rewrite mask2n_ones by auto. pose proof (N.log2_spec al Hp) as [L1 L2]. rewrite <- N.add_1_r in L2.
    assert (least : forall B, pow2 B -> al <= B -> 2 ^ (N.log2 al + 1) <= B).
    { intros B [k ->] HB. apply N.pow_le_mono_r; [discriminate|].
      assert (2 ^ N.log2 al < 2 ^ k).
      { destruct (N.eq_dec al (2 ^ k)); [exfalso; apply Hn; right; exists k; auto|lia]. }
      apply pow2_le_lt in H. lia. }
    destruct (N.ltb_spec (2 ^ (N.log2 al + 1)) 8).
    + repeat split; auto; try lia.
    + repeat split; auto; try lia. exists (N.log2 al + 1). auto.
  - apply not2n_false in E; auto. destruct (N.ltb_spec al 8).
    + repeat split; auto; lia.
    + destruct E as [->|E]; [lia|]. repeat split; auto; lia.
Qed.

(** ** placement arithmetic *)
Lemma land_lnot_pow2 : forall y k, y < 2 ^ 64 -> 
  N.land y (N.lnot (2 ^ k - 1) 64) = (y / 2 ^ k) * 2 ^ k.
Proof.
  intros y k Hy. destruct (N.eq_dec y 0) as [->|Hn].
  - rewrite N.land_0_l, N.div_0_l by (apply N.pow_nonzero; discriminate). reflexivity.
  - rewrite <- N.ldiff_land_low by (apply N.log2_lt_pow2; lia).
    rewrite N.sub_1_r, <- N.ones_equiv, N.ldiff_ones_r, N.shiftl_mul_pow2, N.shiftr_div_pow2. reflexivity.
Qed.

(** size rounded up to a multiple of A *)
Definition round_up (size A : N) : N := ((size + A - 1) / A) * A.

Lemma round_up_spec : forall size A, 0 < A -> size <= round_up size A /\ round_up size A < size + A /\ round_up size A mod A = 0.
Proof.
  intros size A HA. unfold round_up.
  pose proof (N.div_mod (size + A - 1) A ltac:(lia)) as E.
  pose proof (N.mod_upper_bound (size + A - 1) A ltac:(lia)) as B.
  split; [|split]; [| |apply N.mod_mul; lia]; rewrite (N.mul_comm _ A);
    generalize dependent (A * ((size + A - 1) / A)); generalize dependent ((size + A - 1) mod A);
    intros; lia.
Qed.

Lemma user_size_plus_eq : forall size al, al < 2 ^ 32 -> size < 2 ^ 62 ->
  user_size_plus size al = round_up size (alignment_2n al) + alignment_2n al.
Proof.
  intros size al Hal Hs. unfold user_size_plus. cbv zeta.
  destruct (alignment_2n_ceiling al Hal) as ((k & Ek) & H8 & H1 & Hmin).
  assert (HA : alignment_2n al <= 2 ^ 32) by (apply Hmin; [exists 32; auto|lia|lia]).
  set (A := alignment_2n al) in *.
  unfold w64. rewrite N.mod_small by lia.
  replace (A - 1) with (2 ^ k - 1) by (rewrite Ek; auto).
  rewrite land_lnot_pow2 by lia. rewrite <- Ek. unfold round_up.
  replace (size + A - 1 + A) with (size + A - 1 + 1 * A) by lia. rewrite N.div_add by lia. lia.
Qed.

Lemma page_count_spec : forall ps size al, 0 < ps ->
  user_size_plus size al <= ps * page_count ps size al /\ ps * page_count ps size al < user_size_plus size al + ps.
Proof.
  intros ps size al H. unfold page_count. set (u := user_size_plus size al).
  pose proof (N.div_mod (u + (ps - 1)) ps ltac:(lia)) as E.
  pose proof (N.mod_upper_bound (u + (ps - 1)) ps ltac:(lia)) as B.
  generalize dependent (ps * ((u + (ps - 1)) / ps)); generalize dependent ((u + (ps - 1)) mod ps); intros; lia.
Qed.

Lemma user_ptr_eq : forall ps base size al, 0 < ps -> al < 2 ^ 32 -> size < 2 ^ 62 ->
  guard ps base size al + al < 2 ^ 64 ->
  user_ptr ps base size al + user_size_plus size al = guard ps base size al + al.
Proof.
  intros ps base size al Hps Hal Hs Hg. unfold user_ptr, guard, w64 in *.
  pose proof (page_count_spec ps size al Hps) as [P1 P2].
  pose proof (user_size_plus_eq size al Hal Hs) as U.
  destruct (alignment_2n_ceiling al Hal) as (_ & H8 & H1 & _).
  set (u := user_size_plus size al) in *. set (g := ps * page_count ps size al) in *.
  replace (base + g + (2 ^ 64 - u) + al) with ((base + (g - u) + al) + 1 * 2 ^ 64).
  - rewrite N.mod_add by discriminate. rewrite N.mod_small by lia. lia.
  - assert (u <= 2 ^ 64) by lia. lia.
Qed.

Lemma placement : forall ps base size al, pow2 ps -> base mod ps = 0 ->
  size < 2 ^ 52 -> al < 2 ^ 32 -> guard ps base size al + al < 2 ^ 64 ->
  let p := user_ptr ps base size al in
  let g := guard ps base size al in
  exists A, pow2_ceiling al A /\
    base <= p /\ p + size <= g /\ g mod ps = 0 /\
    g - (p + size) < 2 * A - al /\
    (A <= ps -> p mod A = al mod A) /\
    g - base < size + 2 * A + ps.
Proof.
  intros ps base size al [q Hq] Hb Hs Hal Hg p g.
  assert (Hps : 0 < ps) by (subst ps; pose proof (N.pow_nonzero 2 q); lia).
  assert (Hs' : size < 2 ^ 62) by (eapply N.lt_trans; [exact Hs|reflexivity]).
  pose proof (page_count_spec ps size al Hps) as [P1 P2].
  pose proof (user_size_plus_eq size al Hal Hs') as U.
  pose proof (user_ptr_eq ps base size al Hps Hal Hs' Hg) as E.
  pose proof (alignment_2n_ceiling al Hal) as HC. pose proof HC as ((k & Ek) & H8 & H1 & Hmin).
  exists (alignment_2n al). set (A := alignment_2n al) in *.
  pose proof (round_up_spec size A ltac:(lia)) as (R1 & R2 & R3).
  fold p g in E. unfold g in *. unfold guard in *.
  set (c := page_count ps size al) in *. set (u := user_size_plus size al) in *.
  split; [exact HC|]. split; [lia|]. split; [lia|]. split.
  { rewrite (N.mul_comm ps), N.mod_add by lia. auto. }
  split; [lia|]. split; [|lia].
  intro HAps.
  assert (D : exists d, ps = A * d).
  { exists (2 ^ (q - k)). rewrite Hq, Ek, <- N.pow_add_r. f_equal.
    assert (k <= q) by (apply N.pow_le_mono_r_iff with (a := 2); [lia|congruence]). lia. }
  destruct D as [d Hd].
  apply N.mod_divide in Hb; [|lia]. destruct Hb as [b Hb].
  apply N.mod_divide in R3; [|lia]. destruct R3 as [r R3].
  assert (Ep : p + (r + 1) * A = al + (b * d + d * c) * A).
  { rewrite Hb, Hd in E. rewrite U, R3 in E.
    replace (b * (A * d) + A * d * c + al) with (al + (b * d + d * c) * A) in E by ring.
    replace (p + (r * A + A)) with (p + (r + 1) * A) in E by ring. exact E. }
  rewrite <- (N.mod_add p (r + 1) A) by lia. rewrite Ep. apply N.mod_add. lia.
Qed.

(** power-of-two alignment of at least 8 and at most a page: the highest aligned position before the guard page *)
Lemma placement_pow2 : forall ps base size al, pow2 ps -> base mod ps = 0 ->
  size < 2 ^ 52 -> pow2 al -> 8 <= al -> al <= ps -> al < 2 ^ 32 -> guard ps base size al + al < 2 ^ 64 ->
  let p := user_ptr ps base size al in
  let g := guard ps base size al in
  p mod al = 0 /\ p + size <= g /\ forall p', p' mod al = 0 -> p' + size <= g -> p' <= p.
Proof.
  intros ps base size al Hps Hb Hs Hp H8 Hle Hal Hg p g.
  destruct (placement ps base size al Hps Hb Hs Hal Hg) as (A & (PA & H8A & HalA & Hmin) & B1 & B2 & B3 & B4 & B5 & _).
  assert (A = al) by (apply N.le_antisymm; auto; apply Hmin; auto; lia). subst A.
  specialize (B5 Hle). rewrite N.mod_same in B5 by lia. fold p in B1, B2, B4, B5. fold g in B2, B3, B4.
  split; auto. split; auto. intros p' Hp' Hb'.
  apply N.mod_divide in B5; [|lia]. apply N.mod_divide in Hp'; [|lia].
  destruct B5 as [x Hx]. destruct Hp' as [y Hy]. rewrite Hx, Hy in *.
  destruct (N.le_gt_cases y x); [apply N.mul_le_mono_r; auto|].
  exfalso. assert ((x + 1) * al <= y * al) by (apply N.mul_le_mono_r; lia). lia.
Qed.

(** ** canaries *)
Lemma check_range_none : forall m fl n p, check_range m fl p n = None <->
  forall x, within x p (p + N.of_nat n) -> m x = fl.
Proof.
  induction n as [|n IH]; intro p; simpl check_range.
  - split; auto. intros _ x [A B]. lia.
  - destruct (N.eqb_spec (m p) fl) as [E|E].
    + rewrite IH. split; intros H x [A B].
      * destruct (N.eq_dec x p); [subst; auto|]. apply H. split; lia.
      * apply H. split; lia.
    + split; [discriminate|]. intro H. exfalso. apply E. apply H. split; lia.
Qed.

Lemma trim_spot_spec : forall m p n fl, (n <> 0)%nat -> m p <> fl ->
  let k := trim_spot m p n fl in
  (1 <= k <= n)%nat /\ m (p + N.of_nat (k - 1)) <> fl /\ forall i, (k <= i < n)%nat -> m (p + N.of_nat i) = fl.
Proof.
  induction n as [|n IH]; intros fl Hn Hp k; [contradiction|].
  unfold k. cbn [trim_spot]. destruct (N.eqb_spec (m (p + N.of_nat n)) fl) as [E|E].
  - destruct n as [|n]; [exfalso; apply Hp; rewrite <- E; f_equal; lia|].
    destruct (IH fl ltac:(lia) Hp) as (A & B & C). split; [lia|]. split; auto.
    intros i Hi. destruct (Nat.eq_dec i (S n)); [subst; auto|]. apply C. lia.
  - split; [lia|]. split; [|intros; lia]. replace (S n - 1)%nat with n by lia. auto.
Qed.

Lemma check_range_some : forall m fl n p a spot, check_range m fl p n = Some (a, spot) ->
  within a p (p + N.of_nat n) /\ m a <> fl /\ (forall x, within x p a -> m x = fl) /\
  (1 <= length spot <= 8)%nat /\ N.of_nat (length spot) <= p + N.of_nat n - a /\
  (forall i, (i < length spot)%nat -> nth i spot 0 = m (a + N.of_nat i)) /\
  last spot fl <> fl.
Proof.
  induction n as [|n IH]; intros p a spot; [discriminate|].
  cbn [check_range]. destruct (N.eqb_spec (m p) fl) as [E|E].
  - intro H. destruct (IH _ _ _ H) as ((A1 & A2) & B & C & D & F & G). split; [split; lia|]. split; auto.
    split; [|split; [auto|split; [lia|auto]]]. intros x [X1 X2]. destruct (N.eq_dec x p); [subst; auto|]. apply C. split; lia.
  - remember (Nat.min (S n) 8) as w eqn:Hw.
    destruct (trim_spot_spec m p w fl ltac:(lia) E) as (A & B & C).
    remember (trim_spot m p w fl) as k eqn:Hk. cbv zeta. intro H. injection H as <- <-.
    split; [split; lia|]. split; auto. split; [intros x [X1 X2]; lia|].
    rewrite map_length, seq_length. split; [lia|]. split; [lia|]. split.
    + intros i Hi. rewrite nth_indep with (d' := (fun i => m (p + N.of_nat i)) 0%nat) by (rewrite map_length, seq_length; lia).
      rewrite map_nth with (f := fun i => m (p + N.of_nat i)). rewrite seq_nth by lia. reflexivity.
    + destruct k as [|k']; [lia|]. rewrite seq_S, map_app. cbn [map]. rewrite last_last.
      replace (S k' - 1)%nat with k' in B by lia. auto.
Qed.

Lemma snowfield_exact : forall m fl base ptr size grd, base <= ptr -> ptr + size <= grd ->
  (check_snowfield m fl base ptr size grd <> None <->
   exists x, within x base grd /\ ~ within x ptr (ptr + size) /\ m x <> fl).
Proof.
  intros m fl base ptr size grd H1 H2. unfold check_snowfield.
  destruct (check_range m fl (ptr + size) (N.to_nat (grd - (ptr + size)))) as [[a spot]|] eqn:E1.
  - split; [|discriminate]. intros _. apply check_range_some in E1. destruct E1 as ((A1 & A2) & B & _).
    rewrite N2Nat.id in A2. exists a. split; [split; lia|]. split; auto. intros [X1 X2]. lia.
  - destruct (check_range m fl base (N.to_nat (ptr - base))) as [[a spot]|] eqn:E2.
    + split; [|discriminate]. intros _. apply check_range_some in E2. destruct E2 as ((A1 & A2) & B & _).
      rewrite N2Nat.id in A2. exists a. split; [split; lia|]. split; auto. intros [X1 X2]. lia.
    + split; [contradiction|]. rewrite check_range_none in E1, E2. rewrite N2Nat.id in E1, E2.
      intros (x & [X1 X2] & X3 & X4). exfalso. apply X4.
      destruct (N.lt_ge_cases x ptr); [apply E2; split; lia|].
      destruct (N.lt_ge_cases x (ptr + size)); [exfalso; apply X3; split; lia|]. apply E1. split; lia.
Qed.

(** what the report says *)
Lemma snowfield_report : forall m fl base ptr size grd a spot, base <= ptr -> ptr + size <= grd ->
  check_snowfield m fl base ptr size grd = Some (a, spot) ->
  within a base grd /\ ~ within a ptr (ptr + size) /\ m a <> fl /\
  (forall x, ptr + size <= x -> x < grd -> m x <> fl -> ptr + size <= a /\ a <= x) /\
  (a < ptr -> forall x, base <= x -> x < a -> m x = fl) /\
  (1 <= length spot <= 8)%nat /\
  (forall i, (i < length spot)%nat -> nth i spot 0 = m (a + N.of_nat i)).
Proof.
  intros m fl base ptr size grd a spot H1 H2. unfold check_snowfield.
  destruct (check_range m fl (ptr + size) (N.to_nat (grd - (ptr + size)))) as [[a' spot']|] eqn:E1.
  - intro H. injection H as -> ->. apply check_range_some in E1. rewrite N2Nat.id in E1.
    destruct E1 as ((A1 & A2) & B & C & D & _ & G & _).
    split; [split; lia|]. split; [intros [X1 X2]; lia|]. split; auto. split; [|split; [intros; lia|auto]].
    intros x X1 X2 X3. split; auto. destruct (N.le_gt_cases a x); auto. exfalso. apply X3. apply C. split; lia.
  - intro E2. apply check_range_some in E2. rewrite N2Nat.id in E2.
    destruct E2 as ((A1 & A2) & B & C & D & _ & G & _).
    split; [split; lia|]. split; [intros [X1 X2]; lia|]. split; auto. split; [|split; [|auto]].
    + intros x X1 X2 X3. exfalso. apply X3. rewrite check_range_none in E1. rewrite N2Nat.id in E1. apply E1. split; lia.
    + intros _ x X1 X2. apply C. split; lia.
Qed.

(** a program that writes only inside the user range is never reported *)
Lemma snowfield_no_false_alarm : forall m m' fl base ptr size grd, base <= ptr -> ptr + size <= grd ->
  (forall x, ~ within x ptr (ptr + size) -> m' x = mark_snowfield m base ptr size grd fl x) ->
  check_snowfield m' fl base ptr size grd = None.
Proof.
  intros m m' fl base ptr size grd H1 H2 H.
  destruct (check_snowfield m' fl base ptr size grd) eqn:E; auto. exfalso.
  assert (N0 : check_snowfield m' fl base ptr size grd <> None) by congruence.
  apply snowfield_exact in N0; auto. destruct N0 as (x & [X1 X2] & X3 & X4). apply X4. rewrite H by auto.
  unfold mark_snowfield, memset.
  destruct (N.leb_spec (ptr + size) x); destruct (N.ltb_spec x (ptr + size + (grd - (ptr + size)))); cbn [andb]; auto; try lia.
  - assert (x < ptr) by (destruct (N.lt_ge_cases x ptr); auto; exfalso; apply X3; split; lia).
    destruct (N.leb_spec base x); [|lia]. destruct (N.ltb_spec x (base + (ptr - base))); [auto|lia].
Qed.

(** the user range and everything outside the pages is left alone by marking *)
Lemma mark_frame : forall m fl base ptr size grd x, base <= ptr -> ptr + size <= grd ->
  ~ within x base grd \/ within x ptr (ptr + size) -> mark_snowfield m base ptr size grd fl x = m x.
Proof.
  intros m fl base ptr size grd x H1 H2 H. unfold mark_snowfield, memset, within in *.
  destruct (N.leb_spec (ptr + size) x); destruct (N.ltb_spec x (ptr + size + (grd - (ptr + size)))); cbn [andb];
  destruct (N.leb_spec base x); destruct (N.ltb_spec x (base + (ptr - base))); cbn [andb]; auto; exfalso; lia.
Qed.
