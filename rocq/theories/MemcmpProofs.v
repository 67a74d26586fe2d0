From Coq Require Import List NArith ZArith Bool Arith Lia.
From Verif Require Import Base FilterModel MemcmpModel MemcmpSpec.
Import ListNotations.
Local Open Scope N_scope.

Lemma get_map : forall b i, (i < length b)%nat -> get (map Some b) i = Some (nth i b 0).
Proof.
  intros b i L. unfold get. rewrite nth_error_map. destruct (nth_error b i) eqn:E; cbn; [|apply nth_error_None in E; lia]. f_equal. symmetry. apply nth_error_nth. auto.
Qed.
Lemma bit1 : forall x j, N.land (N.shiftr x j) 1 = N.b2n (N.testbit x j).
Proof.
  intros x j. change 1 with (N.ones 1) at 1. rewrite N.land_ones, N.pow_1_r. rewrite <- N.bit0_mod, N.shiftr_spec', N.add_0_l. reflexivity.
Qed.
Lemma agrees_map : forall b k, (k <= length b)%nat -> agrees (map Some b) b k.
Proof. intros b k L i I. apply get_map. lia. Qed.
Lemma bits_loop_spec : forall m1 m2 b1 b2 K k n, agrees m1 b1 K -> agrees m2 b2 K -> (n + k <= 8 * K)%nat ->
  exists r, bits_loop m1 m2 k n = Some r /\ (r = true <-> forall q, (n <= q < n + k)%nat -> bit b1 q = bit b2 q).
Proof.
  induction k as [|k IH]; intros n A1 A2 L; cbn [bits_loop].
  - exists true. split; auto. split; auto. intros _ q Q. lia.
  - assert (I : (n / 8 < K)%nat) by (apply Nat.div_lt_upper_bound; lia). rewrite (A1 _ I), (A2 _ I), !bit1.
    fold (bit b1 n). fold (bit b2 n). destruct (N.eqb_spec (N.b2n (bit b1 n)) (N.b2n (bit b2 n))) as [E|E].
    + destruct (IH (S n) A1 A2) as (r & -> & R); [lia|]. exists r. split; auto. rewrite R. split; intros H q Q; [|apply H; lia].
      destruct (Nat.eq_dec q n) as [->|Nq]; [apply N.b2n_inj; auto|apply H; lia].
    + exists false. split; auto. split; [discriminate|]. intros H. exfalso. apply E. rewrite (H n) by lia. reflexivity.
Qed.
Lemma bits_equal_spec : forall m1 m2 b1 b2 K nbits, agrees m1 b1 K -> agrees m2 b2 K -> (N.to_nat nbits <= 8 * K)%nat ->
  exists r, bits_equal m1 m2 nbits = Some r /\ (r = true <-> same_bits b1 b2 (N.to_nat nbits)).
Proof.
  intros m1 m2 b1 b2 K nbits A1 A2 L. destruct (bits_loop_spec m1 m2 b1 b2 K (N.to_nat nbits) 0 A1 A2) as (r & E & R); [lia|]. exists r. split; auto. rewrite R. unfold same_bits. split; intros H q Q; apply H; lia.
Qed.
Lemma nth_firstn_lt : forall (l : list N) k i, (i < k)%nat -> nth i (firstn k l) 0 = nth i l 0.
Proof. induction l as [|x l IH]; intros [|k] [|i] H; try lia; cbn; auto. apply IH. lia. Qed.
(** whole bytes *)
Lemma byte_bits : forall x y, x < 256 -> y < 256 -> (forall j, (j < 8)%nat -> N.testbit x (N.of_nat j) = N.testbit y (N.of_nat j)) -> x = y.
Proof.
  intros x y X Y H. apply N.bits_inj. intros j. destruct (N.lt_ge_cases j 8) as [J|J].
  - specialize (H (N.to_nat j)). rewrite N2Nat.id in H. apply H. lia.
  - assert (B : forall z, z < 256 -> N.testbit z j = false). { intros z Z. replace z with (z mod 2 ^ 8) by (apply N.mod_small; exact Z). apply N.mod_pow2_bits_high. auto. }
    rewrite !B; auto.
Qed.
Lemma same_bytes : forall p a k, length p = k -> (k <= length a)%nat -> Forall (fun x => x < 256) p -> Forall (fun x => x < 256) a -> (same_bits p a (8 * k) <-> begins p a).
Proof.
  intros p a k L LA P A. unfold begins. rewrite L. split.
  - intros H. symmetry. apply (nth_ext _ _ 0 0); [rewrite firstn_length; lia|]. intros i I. rewrite L in I. rewrite nth_firstn_lt by auto.
    apply byte_bits.
    + rewrite Forall_forall in P. apply P, nth_In. lia.
    + rewrite Forall_forall in A. apply A, nth_In. lia.
    + intros j J. specialize (H (8 * i + (7 - j))%nat). unfold bit in H. replace ((8 * i + (7 - j)) / 8)%nat with i in H by (apply Nat.div_unique with (7 - j)%nat; lia).
      replace ((8 * i + (7 - j)) mod 8)%nat with (7 - j)%nat in H by (apply Nat.mod_unique with i; lia). replace (7 - (7 - j))%nat with j in H by lia. apply H. lia.
  - intros H n N. unfold bit. rewrite <- H at 1. rewrite nth_firstn_lt; auto. apply Nat.div_lt_upper_bound; lia.
Qed.

(** *** put and get *)
Lemma put_some : forall m i v, (i < length m)%nat -> exists m', put m i v = Some m' /\ length m' = length m /\ get m' i = Some v /\ forall j, j <> i -> get m' j = get m j.
Proof.
  induction m as [|x m IH]; intros i v L; cbn in L; [lia|]. destruct i as [|i]; cbn [put].
  - eexists. split; [reflexivity|]. split; auto. split; auto. intros [|j] J; [congruence|reflexivity].
  - destruct (IH i v) as (m' & -> & L' & G & O); [lia|]. eexists. split; [reflexivity|]. cbn. split; [lia|]. split; [exact G|]. intros [|j] J; [reflexivity|]. apply O. congruence.
Qed.

(** *** hexadecimal *)
Definition hex_digits (s : bytes) : Prop := Forall (fun c => isxdigit c = true) s.
Definition nib (c : byte) : Z := hex2byte c.
Lemma hex_range : forall c, isxdigit c = true -> (0 <= hex2byte c < 16)%Z.
Proof.
  intros c H. unfold isxdigit in H. unfold hex2byte. destruct (48 <=? c) eqn:A, (c <=? 57) eqn:B, (65 <=? c) eqn:C, (c <=? 70) eqn:D, (97 <=? c) eqn:E, (c <=? 102) eqn:F; cbn in *; try discriminate; rewrite ?N.leb_le, ?N.leb_gt in *; lia.
Qed.
(** bytes of pairs of digits *)
Fixpoint pairs (p : bytes) : list N :=
  match p with a :: b :: r => Z.to_N (hex2byte a * 16 + hex2byte b) :: pairs r | _ => [] end.
Lemma half_SS : forall n, (S (S n) / 2 = S (n / 2))%nat. Proof. intros n. replace (S (S n)) with (n + 1 * 2)%nat by lia. rewrite Nat.div_add by lia. lia. Qed.
Lemma odd_2 : forall j, Nat.odd (2 * j) = false. Proof. intros j. rewrite Nat.odd_mul. reflexivity. Qed.
Lemma odd_21 : forall j, Nat.odd (S (2 * j)) = true. Proof. intros j. rewrite Nat.odd_succ, Nat.even_mul. reflexivity. Qed.
Lemma half_2 : forall j, (S (2 * j) / 2 = j)%nat. Proof. intros j. symmetry. apply (Nat.div_unique (S (2 * j)) 2 j 1); lia. Qed.
(** from an even index on; p = the digits from there *)
Lemma nth_skip : forall (s : bytes) i c r, skipn i s = c :: r -> nth i s 0 = c /\ skipn (S i) s = r.
Proof. induction s as [|x s IH]; intros [|i] c r H; cbn in *; try discriminate; [inversion H; auto|]. apply IH. auto. Qed.
Lemma hex_loop_even : forall p s off b m j q, (off <= 2 * j)%nat -> skipn (2 * j - off) s = p ++ q -> Nat.even (length p) = true -> hex_digits p -> (j + length p / 2 <= length m)%nat ->
  exists m', hex_loop s off (length p) (2 * j) b m = Some m' /\ length m' = length m /\ (forall i, (i < j)%nat -> get m' i = get m i) /\ (forall i, (i < length p / 2)%nat -> get m' (j + i) = Some (nth i (pairs p) 0)).
Proof.
  intros p s off b m j q. remember (length p) as n eqn:EN. revert p EN s b m j q. induction n as [n IH] using lt_wf_ind. intros p EN s b m j q O Sk Ev D L.
  destruct p as [|x [|y p]]; cbn [length] in EN; subst n.
  - exists m. cbn. repeat split; auto. intros; lia.
  - discriminate.
  - cbn [hex_loop]. rewrite odd_2. destruct (nth_skip s (2 * j - off) x (y :: p ++ q) Sk) as [N1 S1]. rewrite N1. replace (S (2 * j - off)) with (S (2 * j) - off)%nat in S1 by lia.
    rewrite odd_21, half_2. destruct (nth_skip s (S (2 * j) - off) y (p ++ q) S1) as [N2 S2]. rewrite N2. replace (S (S (2 * j) - off)) with (2 * S j - off)%nat in S2 by lia.
    pose proof (Forall_inv D) as Dx. pose proof (Forall_inv_tail D) as D1. pose proof (Forall_inv D1) as Dy. pose proof (Forall_inv_tail D1) as D2. cbn beta in Dx, Dy. pose proof (hex_range x Dx) as Hx. pose proof (hex_range y Dy) as Hy.
    rewrite Z.shiftl_mul_pow2 by lia. change (2 ^ 4)%Z with 16%Z. rewrite Z.mod_small by lia.
    assert (H2 : (S (S (length p)) / 2 = S (length p / 2))%nat) by apply half_SS.
    rewrite H2 in L. destruct (put_some m j (Z.to_N (hex2byte x * 16 + hex2byte y))) as (m1 & P & L1 & G1 & O1); [lia|]. rewrite P.
    replace (S (S (2 * j))) with (2 * S j)%nat by lia.
    destruct (IH (length p) ltac:(lia) p eq_refl s y m1 (S j) q ltac:(lia) S2 Ev D2 ltac:(lia)) as (m' & E & L' & B & A). rewrite E. exists m'. split; auto. split; [lia|]. split.
    + intros i I. rewrite B by lia. apply O1. lia.
    + rewrite H2. intros [|i] I; cbn [pairs nth].
      * rewrite Nat.add_0_r, B by lia. auto.
      * replace (j + S i)%nat with (S j + i)%nat by lia. apply A. lia.
Qed.
Lemma count_run : forall s, exists q, s = firstn (count_xdigits s) s ++ q /\ hex_digits (firstn (count_xdigits s) s) /\ length (firstn (count_xdigits s) s) = count_xdigits s /\ (count_xdigits s <= length s)%nat.
Proof.
  induction s as [|c s (q & E & D & L & B)]; cbn [count_xdigits]; [exists []; repeat split; constructor|]. destruct (isxdigit c) eqn:X; cbn [firstn length app].
  - exists q. split; [f_equal; auto|]. split; [constructor; auto|]. lia.
  - exists (c :: s). split; auto. split; [constructor|]. lia.
Qed.
(** the digits with a leading zero for an odd count *)
Definition padded (p : bytes) : bytes := if Nat.odd (length p) then 48 :: p else p.
Lemma hex2bytes_spec : forall s, let p := firstn (count_xdigits s) s in
  exists m, hex2bytes s = Some ((length (padded p) / 2)%nat, m) /\ length m = length s /\ agrees m (pairs (padded p)) (length (padded p) / 2).
Proof.
  intros s p. destruct (count_run s) as (q & E & D & L & B). fold p in E, D, L. unfold hex2bytes, padded. rewrite L. destruct (Nat.odd (count_xdigits s)) eqn:O.
  - destruct p as [|x p']; [cbn in L; rewrite <- L in O; discriminate|]. rewrite <- L in *. cbn [length] in *.
    assert (Ev : Nat.even (length p') = true) by (rewrite Nat.odd_succ in O; auto).
    (* one virtual step before *)
    pose proof (hex_loop_even (48 :: x :: p') (48 :: s) 0 0 (repeat None (length s)) 0 q) as H. cbn [length] in H.
    assert (DD : hex_digits (48 :: x :: p')) by (constructor; auto). cbn [Nat.mul Nat.sub skipn app] in H. specialize (H ltac:(lia) ltac:(rewrite E at 1; reflexivity) Ev DD).
    assert (H2 : (S (S (length p')) / 2 = S (length p' / 2))%nat) by apply half_SS.
    rewrite repeat_length in H. destruct H as (m & Em & Lm & _ & Am). { rewrite H2. pose proof (Nat.div_le_upper_bound (length p') 2 (length p')). lia. }
    assert (SH : forall k i b mm, (1 <= i)%nat -> hex_loop (48 :: s) 0 k i b mm = hex_loop s 1 k i b mm).
    { induction k as [|k IH]; intros i b mm I; cbn [hex_loop]; auto. replace (nth (i - 0) (48 :: s) 0) with (nth (i - 1) s 0) by (destruct i; [lia|]; cbn; rewrite Nat.sub_0_r; reflexivity).
      destruct (if Nat.odd i then _ else _); auto. }
    cbn [hex_loop] in Em. cbn [Nat.odd Nat.even negb] in Em. change (Nat.odd 0) with false in Em. cbv iota in Em. change (nth (0 - 0) (48 :: s) 0) with 48 in Em.
    exists m. change (hex_loop (48 :: s) 0 (S (length p')) 1 48 (repeat None (length s)) = Some m) in Em. rewrite SH in Em by lia. rewrite Em.
    replace (S (length p') + 1)%nat with (S (S (length p'))) by lia. split; auto.
  - pose proof (hex_loop_even p s 0 0 (repeat None (length s)) 0 q) as H. rewrite L in H. cbn [Nat.mul Nat.sub skipn] in H. rewrite repeat_length in H.
    assert (Ev : Nat.even (count_xdigits s) = true) by (rewrite <- Nat.negb_odd, O; reflexivity).
    assert (HB : (0 + count_xdigits s / 2 <= length s)%nat) by (pose proof (Nat.div_le_upper_bound (count_xdigits s) 2 (count_xdigits s)); lia).
    destruct (H (Nat.le_0_l _) E Ev D HB) as (m & Em & Lm & _ & Am).
    cbn [Nat.add] in Em. rewrite Em. exists m. rewrite ?L. split; auto.
Qed.
Lemma pairs_length : forall p, length (pairs p) = (length p / 2)%nat.
Proof.
  intros p. remember (length p) as n. revert p Heqn. induction n as [n IH] using lt_wf_ind. intros [|x [|y p]] ->; auto. cbn [pairs length]. rewrite (IH (length p)); cbn; auto; try lia.
  symmetry. apply half_SS.
Qed.
Lemma number_from : forall base l a, (fold_left (fun a d => a * base + d) l a = a * base ^ Z.of_nat (length l) + number base l)%Z.
Proof.
  unfold number. intros base l. induction l as [|d l IH]; intros a; [cbn; lia|]. cbn [fold_left length]. rewrite (IH (a * base + d)%Z), (IH (0 * base + d)%Z).
  rewrite Nat2Z.inj_succ, Z.pow_succ_r by lia. lia.
Qed.
Lemma pairs_value : forall p, hex_digits p -> Nat.even (length p) = true -> number 256 (map Z.of_N (pairs p)) = number 16 (map hex2byte p) /\ Forall (fun x => x < 256) (pairs p).
Proof.
  intros p. remember (length p) as n. revert p Heqn. induction n as [n IH] using lt_wf_ind. intros [|x [|y p]] En D Ev; subst n; [split; [reflexivity|constructor]|discriminate|].
  pose proof (Forall_inv D) as Dx. pose proof (Forall_inv_tail D) as D1. pose proof (Forall_inv D1) as Dy. pose proof (Forall_inv_tail D1) as D2. cbn beta in Dx, Dy. pose proof (hex_range x Dx). pose proof (hex_range y Dy).
  destruct (IH (length p)) with (p := p) as [V F]; cbn; auto. split; [|constructor; auto; lia].
  unfold number in *. cbn [pairs map fold_left]. rewrite !number_from. unfold number. rewrite V, !map_length, pairs_length. rewrite Z2N.id by lia.
  assert (P : (16 ^ Z.of_nat (length p) = 256 ^ Z.of_nat (length p / 2))%Z).
  { apply Nat.even_spec in Ev. destruct Ev as [k K]. assert (length p = 2 * (k - 1))%nat by (cbn in K; lia). rewrite H1. rewrite Nat.mul_comm, Nat.div_mul by lia. rewrite Nat2Z.inj_mul. rewrite Z.mul_comm, Z.pow_mul_r by lia. reflexivity. }
  rewrite P. lia.
Qed.
Lemma padded_even : forall p, Nat.even (length (padded p)) = true.
Proof. intros p. unfold padded. destruct (Nat.odd (length p)) eqn:O; cbn [length]; [rewrite Nat.even_succ; auto|rewrite <- Nat.negb_odd, O; reflexivity]. Qed.
Lemma padded_digits : forall p, hex_digits p -> hex_digits (padded p). Proof. intros p D. unfold padded. destruct (Nat.odd (length p)); auto. constructor; auto. Qed.
Lemma padded_value : forall p, number 16 (map hex2byte (padded p)) = number 16 (map hex2byte p). Proof. intros p. unfold padded. destruct (Nat.odd (length p)); reflexivity. Qed.
Lemma padded_half : forall p, (length (padded p) / 2 = (length p + 1) / 2)%nat.
Proof.
  intros p. unfold padded. destruct (Nat.odd (length p)) eqn:O; cbn [length]; [f_equal; lia|].
  rewrite <- Nat.negb_even in O. apply negb_false_iff, Nat.even_spec in O. destruct O as [k K]. rewrite K. rewrite (Nat.mul_comm 2 k), Nat.div_mul by lia. apply (Nat.div_unique _ _ k 1); lia.
Qed.
Lemma digits_all : forall s, hex_digits s -> firstn (count_xdigits s) s = s.
Proof. induction 1 as [|c s X _ IH]; auto. cbn [count_xdigits]. rewrite X. cbn. f_equal. auto. Qed.
(** decoding a literal of digits only *)
Lemma hex_decode : forall s, hex_digits s -> exists m b, hex2bytes s = Some (length b, m) /\ agrees m b (length b) /\ length b = ((length s + 1) / 2)%nat /\ Forall (fun x => x < 256) b /\
  number 256 (map Z.of_N b) = number 16 (map hex2byte s).
Proof.
  intros s D. destruct (hex2bytes_spec s) as (m & E & L & A). rewrite (digits_all s D) in *. exists m, (pairs (padded s)). rewrite pairs_length. split; auto. split; auto. split; [apply padded_half|].
  destruct (pairs_value (padded s) (padded_digits s D) (padded_even s)) as [V F]. split; auto. rewrite V. apply padded_value.
Qed.

Lemma some_inj : forall (A : Type) (x y : A), Some x = Some y -> x = y. Proof. intros A x y H. congruence. Qed.
(** *** binary *)
Definition mbit (m : mem) (n : nat) : option bool := match get m (n / 8) with Some x => Some (N.testbit x (N.of_nat (7 - n mod 8))) | None => None end.
Lemma bin_loop_spec : forall s c m done, length done = c -> (c + length s <= 8 * length m)%nat -> (forall i, (i < length m)%nat -> exists x, get m i = Some x /\ x < 256) ->
  (forall n, (n < 8 * length m)%nat -> mbit m n = Some (nth n done false)) ->
  exists m', bin_loop s c m = Some (length (done ++ denoted s), m') /\ length m' = length m /\ (forall i, (i < length m)%nat -> exists x, get m' i = Some x /\ x < 256) /\
    (forall n, (n < 8 * length m)%nat -> mbit m' n = Some (nth n (done ++ denoted s) false)).
Proof.
  induction s as [|ch s IH]; intros c m done LD LM DF Bi; cbn [bin_loop].
  - exists m. cbn. rewrite app_nil_r, LD. auto.
  - unfold denoted. cbn [filter]. destruct (N.eqb_spec ch 32) as [E|E]; cbn [negb map].
    + cbn in LM. apply IH; auto. lia.
    + cbn [length] in LM. assert (I : (c / 8 < length m)%nat) by (apply Nat.div_lt_upper_bound; lia). destruct (DF _ I) as (x & G & X). rewrite G.
      set (v := N.lor x (N.shiftl (if ch =? 49 then 1 else 0) (N.of_nat (7 - c mod 8)))). destruct (put_some m (c / 8) v I) as (m1 & P & L1 & G1 & O1). rewrite P.
      assert (V : v < 256). { unfold v. assert (J : N.shiftl (if ch =? 49 then 1 else 0) (N.of_nat (7 - c mod 8)) < 256).
        { rewrite N.shiftl_mul_pow2. assert (2 ^ N.of_nat (7 - c mod 8) <= 2 ^ 7) by (apply N.pow_le_mono_r; lia). change (2 ^ 7) with 128 in H. destruct (ch =? 49); lia. }
        revert J. generalize (N.shiftl (if ch =? 49 then 1 else 0) (N.of_nat (7 - c mod 8))). intros y Y. destruct (N.eq_dec (N.lor x y) 0) as [->|Z]; [reflexivity|]. apply N.log2_lt_pow2 with (b := 8); [lia|]. rewrite N.log2_lor.
        apply N.max_lub_lt; (match goal with |- N.log2 ?q < 8 => destruct (N.eq_dec q 0) as [->|?]; [reflexivity|apply N.log2_lt_pow2; [lia|auto]] end). }
      destruct (IH (S c) m1 (done ++ [ch =? 49])) as (m' & Em & Lm & Dm & Bm).
      * rewrite app_length. cbn. lia.
      * lia.
      * intros i Ii. destruct (Nat.eq_dec i (c / 8)) as [->|Ni]; [exists v; auto|]. rewrite O1 by auto. apply DF. lia.
      * intros n Nn. rewrite L1 in Nn. specialize (Bi n Nn). unfold mbit in *. destruct (Nat.eq_dec (n / 8) (c / 8)) as [Eq|Nq].
        -- rewrite Eq in *. rewrite G in Bi. rewrite G1. f_equal. pose proof (some_inj _ _ _ Bi) as Bn. unfold v. rewrite N.lor_spec. rewrite Bn.
           assert (SB : N.testbit (N.shiftl (if ch =? 49 then 1 else 0) (N.of_nat (7 - c mod 8))) (N.of_nat (7 - n mod 8)) = (Nat.eqb n c && (ch =? 49))).
           { pose proof (Nat.mod_upper_bound n 8 ltac:(lia)). pose proof (Nat.mod_upper_bound c 8 ltac:(lia)). pose proof (Nat.div_mod n 8 ltac:(lia)). pose proof (Nat.div_mod c 8 ltac:(lia)).
             destruct (Nat.eqb_spec n c) as [->|Nc].
             - rewrite N.shiftl_spec_high' by lia. rewrite N.sub_diag. destruct (ch =? 49); reflexivity.
             - cbn [andb]. destruct (N.lt_ge_cases (N.of_nat (7 - n mod 8)) (N.of_nat (7 - c mod 8))) as [Lt|Ge]; [apply N.shiftl_spec_low; auto|]. rewrite N.shiftl_spec_high' by auto.
               assert (N.of_nat (7 - n mod 8) - N.of_nat (7 - c mod 8) <> 0) by lia. destruct (ch =? 49); [|apply N.bits_0]. apply N.bits_above_log2. change (N.log2 1) with 0. lia. }
           rewrite SB. destruct (Nat.eqb_spec n c) as [->|Nc]; cbn [andb].
           ++ rewrite nth_overflow by lia. rewrite app_nth2 by lia. rewrite LD, Nat.sub_diag. cbn [nth]. destruct (ch =? 49); reflexivity.
           ++ rewrite orb_false_r. destruct (Nat.lt_ge_cases n c); [rewrite app_nth1 by lia; reflexivity|]. rewrite !nth_overflow; auto; rewrite ?app_length; cbn; lia.
        -- rewrite O1 by auto. rewrite Bi. f_equal. destruct (Nat.lt_ge_cases n c); [rewrite app_nth1 by lia; reflexivity|]. rewrite !nth_overflow; auto; rewrite ?app_length; cbn; try lia. assert (n <> c) by (intros ->; congruence). lia.
      * rewrite <- app_assoc in Em, Bm. rewrite L1 in *. exists m'. cbn [app] in *. auto.
Qed.
Lemma bin_decode : forall s, exists m b, bin_to_bits s = Some (length (denoted s), m) /\ agrees m b (length s) /\ length b = length s /\ (forall n, (n < length (denoted s))%nat -> bit b n = nth n (denoted s) false).
Proof.
  intros s. unfold bin_to_bits. destruct (bin_loop_spec s 0 (repeat (Some 0) (length s)) []) as (m & E & L & D & B).
  - reflexivity.
  - rewrite repeat_length. lia.
  - intros i I. rewrite repeat_length in I. exists 0. split; [|lia]. unfold get. rewrite nth_error_repeat by auto. reflexivity.
  - intros n N. rewrite repeat_length in N. unfold mbit, get. rewrite nth_error_repeat by (apply Nat.div_lt_upper_bound; lia). rewrite N.bits_0. destruct n; reflexivity.
  - rewrite repeat_length in *. cbn [app] in *. set (f := fun i => match get m i with Some x => x | None => 0 end). exists m, (map f (seq 0 (length s))). split; auto.
    assert (NT : forall i, (i < length s)%nat -> get m i = Some (nth i (map f (seq 0 (length s))) 0)).
    { intros i I. destruct (D i I) as (x & G & _). rewrite (nth_indep _ 0 (f 0%nat)) by (rewrite map_length, seq_length; auto). rewrite map_nth, seq_nth by auto. unfold f. cbn [Nat.add]. rewrite G. reflexivity. }
    split; [exact NT|]. split; [rewrite map_length, seq_length; auto|]. intros n N.
    assert (LN : (length (denoted s) <= length s)%nat) by (unfold denoted; rewrite map_length; clear; induction s as [|c s IH]; cbn; auto; destruct (negb (c =? 32)); cbn; lia).
    assert (I : (n / 8 < length s)%nat) by (apply Nat.div_lt_upper_bound; lia). specialize (B n ltac:(lia)). unfold mbit in B. rewrite (NT _ I) in B. exact (some_inj _ _ _ B).
Qed.
