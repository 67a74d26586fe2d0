(** Proofs about following jumps on arm64. *)
From Coq Require Import List NArith ZArith Bool Lia.
From Verif Require Import StubModel StubSpec ArmModel ArmSpec.
Import ListNotations.
Local Open Scope N_scope.

(** ** bits *)
Lemma land_split w b hi lo : lo < 2 ^ b -> N.land w (2 ^ b * hi + lo) = 2 ^ b * N.land (w / 2 ^ b) hi + N.land (w mod 2 ^ b) lo.
Proof.
  intro H. assert (L : forall a c, c < 2 ^ b -> 2 ^ b * a + c = N.lor (N.shiftl a b) c).
  { intros a c C. rewrite N.shiftl_mul_pow2, (N.mul_comm a). symmetry. rewrite <- N.lxor_lor; [symmetry; apply N.add_nocarry_lxor|]; apply N.bits_inj; intro i; rewrite N.land_spec, N.bits_0;
      (destruct (N.lt_ge_cases i b) as [I|I]; [rewrite N.mul_comm, N.mul_pow2_bits_low by exact I; reflexivity|]);
      replace (N.testbit c i) with false; try apply andb_false_r; symmetry; (destruct (N.eq_dec c 0) as [->|Z0]; [apply N.bits_0|]); apply N.bits_above_log2; apply (N.lt_le_trans _ b); try exact I; apply N.log2_lt_pow2; lia. }
  assert (P : 2 ^ b <> 0) by (apply N.pow_nonzero; discriminate).
  assert (Lm : N.land (w mod 2 ^ b) lo < 2 ^ b).
  { destruct (N.eq_dec (N.land (w mod 2 ^ b) lo) 0) as [->|Z0]; [lia|]. apply N.log2_lt_pow2; [lia|]. eapply N.le_lt_trans; [apply N.log2_land|]. 
    assert (lo <> 0) by (intros ->; rewrite N.land_0_r in Z0; congruence).
    apply (N.le_lt_trans _ (N.log2 lo)); [apply N.le_min_r|apply N.log2_lt_pow2; lia]. }
  rewrite (L hi lo H), (L _ _ Lm). apply N.bits_inj. intro i. rewrite N.land_spec, !N.lor_spec, N.land_spec. destruct (N.lt_ge_cases i b) as [I|I].
  - rewrite !N.shiftl_spec_low by exact I. cbn [orb]. rewrite N.mod_pow2_bits_low by exact I. reflexivity.
  - rewrite !N.shiftl_spec_high' by exact I. rewrite N.land_spec, N.div_pow2_bits, N.sub_add by exact I. rewrite N.mod_pow2_bits_high by exact I. cbn [andb].
    replace (N.testbit lo i) with false; [rewrite !orb_false_r; reflexivity|]. symmetry. destruct (N.eq_dec lo 0) as [->|Z0]; [apply N.bits_0|]. apply N.bits_above_log2. apply (N.lt_le_trans _ b); [apply N.log2_lt_pow2; lia|exact I].
Qed.
Lemma land_low f mask : mask < 2 ^ 32 -> N.land f mask = N.land (f mod 2 ^ 32) mask.
Proof.
  intro H. replace mask with (2 ^ 32 * 0 + mask) at 1 by lia. rewrite land_split by exact H. rewrite N.land_0_r. lia.
Qed.
Lemma div_div w a b : w / 2 ^ a / 2 ^ b = w / 2 ^ (a + b).
Proof. rewrite N.div_div by (apply N.pow_nonzero; discriminate). rewrite <- N.pow_add_r. reflexivity. Qed.

Lemma mod_low w : (w mod 2 ^ 7) mod 2 ^ 5 = w mod 2 ^ 5.
Proof. change (2 ^ 7) with (2 ^ 5 * 2 ^ 2). rewrite N.mod_mul_r by discriminate. rewrite N.add_comm, N.mul_comm, N.add_comm, N.mod_add by discriminate. rewrite N.mod_mod by discriminate. reflexivity. Qed.
Lemma mask_adrp w : N.land w 0x9f00001f = 2 ^ 24 * (128 * field w 31 1 + field w 24 5) + field w 0 5.
Proof.
  replace 0x9f00001f with (2 ^ 5 * (2 ^ 19 * (2 ^ 7 * N.ones 1 + N.ones 5) + 0) + N.ones 5) by reflexivity.
  rewrite land_split by reflexivity. rewrite land_split by reflexivity. rewrite land_split by reflexivity. rewrite !div_div. rewrite N.land_0_r, !N.land_ones.
  unfold field. rewrite N.pow_0_r, N.div_1_r. change (5 + 19) with 24. change (5 + (19 + 7)) with 31. rewrite mod_low, N.mod_mod by discriminate.
  set (x := (w / 2 ^ 31) mod 2 ^ 1). set (y := (w / 2 ^ 24) mod 2 ^ 5). set (z := w mod 2 ^ 5). change (2 ^ 5) with 32. change (2 ^ 19) with 524288. change (2 ^ 7) with 128. change (2 ^ 24) with 16777216. lia.
Qed.
Lemma mask_load w : N.land w 0xffe003ff = 2 ^ 21 * field w 21 11 + field w 0 10.
Proof.
  replace 0xffe003ff with (2 ^ 10 * (2 ^ 11 * 2047 + 0) + 1023) by reflexivity. rewrite land_split by reflexivity. rewrite land_split by reflexivity. rewrite N.land_0_r, div_div.
  change 2047 with (N.ones 11). change 1023 with (N.ones 10). rewrite !N.land_ones. unfold field. rewrite N.pow_0_r, N.div_1_r, N.mod_mod by discriminate. change (10 + 11) with 21. lia.
Qed.
Lemma mask_br w : N.land w 0xfffffc1f = 2 ^ 10 * field w 10 22 + field w 0 5.
Proof.
  replace 0xfffffc1f with (2 ^ 5 * (2 ^ 5 * 4194303 + 0) + 31) by reflexivity. rewrite land_split by reflexivity. rewrite land_split by reflexivity. rewrite N.land_0_r, div_div.
  change 4194303 with (N.ones 22). change 31 with (N.ones 5). rewrite !N.land_ones. unfold field. rewrite N.pow_0_r, N.div_1_r, N.mod_mod by discriminate. change (5 + 5) with 10. lia.
Qed.
Lemma mask_literal w : N.land w 0xf8000000 = 2 ^ 27 * field w 27 5.
Proof.
  replace 0xf8000000 with (2 ^ 27 * 31 + 0) by reflexivity. rewrite land_split by reflexivity. rewrite N.land_0_r. change 31 with (N.ones 5). rewrite N.land_ones. unfold field. lia.
Qed.
Lemma mask_near w : N.land w 0x07ffffe0 = 2 ^ 5 * field w 5 22.
Proof.
  replace 0x07ffffe0 with (2 ^ 5 * 4194303 + 0) by reflexivity. rewrite land_split by reflexivity. rewrite N.land_0_r. change 4194303 with (N.ones 22). rewrite N.land_ones. unfold field. lia.
Qed.

(** ** memory *)
Lemma opcode m p i : sound m -> fetch_opcode m p i mod 2 ^ 32 = instruction m (p + i * 4) /\ instruction m (p + i * 4) < 2 ^ 32.
Proof.
  intro S. unfold fetch_opcode, instruction. cbn [get seq map unle]. rewrite N.add_0_r. set (a := p + i * 4).
  change (N.of_nat 1) with 1. change (N.of_nat 2) with 2. change (N.of_nat 3) with 3. change (N.of_nat 4) with 4. change (N.of_nat 5) with 5. change (N.of_nat 6) with 6. change (N.of_nat 7) with 7.
  pose proof (S a). pose proof (S (a + 1)). pose proof (S (a + 2)). pose proof (S (a + 3)).
  change (2 ^ 8) with 256. change (2 ^ 16) with 65536. change (2 ^ 24) with 16777216. change (2 ^ 32) with 4294967296.
  split; [|lia]. symmetry. apply (N.mod_unique _ _ (m (a + 4) + 256 * (m (a + 5) + 256 * (m (a + 6) + 256 * (m (a + 7) + 256 * 0))))); lia.
Qed.
Lemma stored m a : unle (get m a 8) = quad m a.
Proof.
  unfold quad. cbn [get seq map unle]. rewrite N.add_0_r.
  change (N.of_nat 1) with 1. change (N.of_nat 2) with 2. change (N.of_nat 3) with 3. change (N.of_nat 4) with 4. change (N.of_nat 5) with 5. change (N.of_nat 6) with 6. change (N.of_nat 7) with 7.
  change (2 ^ 8) with 256. change (2 ^ 16) with 65536. change (2 ^ 24) with 16777216. change (2 ^ 32) with 4294967296. change (2 ^ 40) with 1099511627776. change (2 ^ 48) with 281474976710656. change (2 ^ 56) with 72057594037927936. lia.
Qed.
Lemma quad_bound m a : sound m -> quad m a < 2 ^ 64.
Proof.
  intro S. unfold quad. pose proof (S a). pose proof (S (a + 1)). pose proof (S (a + 2)). pose proof (S (a + 3)). pose proof (S (a + 4)). pose proof (S (a + 5)). pose proof (S (a + 6)). pose proof (S (a + 7)).
  change (2 ^ 8) with 256. change (2 ^ 16) with 65536. change (2 ^ 24) with 16777216. change (2 ^ 32) with 4294967296. change (2 ^ 40) with 1099511627776. change (2 ^ 48) with 281474976710656. change (2 ^ 56) with 72057594037927936. change (2 ^ 64) with 18446744073709551616. lia.
Qed.
(** a field of an opcode *)
Lemma field_low f from n : from + n <= 32 -> field (f mod 2 ^ 32) from n = field f from n.
Proof.
  intro H. unfold field. apply N.bits_inj. intro i. destruct (N.lt_ge_cases i n) as [I|I].
  - rewrite !N.mod_pow2_bits_low, !N.div_pow2_bits, N.mod_pow2_bits_low by lia. reflexivity.
  - rewrite !N.mod_pow2_bits_high by exact I. reflexivity.
Qed.
Lemma field_land f from n : N.land (N.shiftr f from) (N.ones n) = field f from n.
Proof. unfold field. rewrite N.land_ones, N.shiftr_div_pow2. reflexivity. Qed.
Lemma field_bound w from n : field w from n < 2 ^ n.
Proof. apply N.mod_lt, N.pow_nonzero. discriminate. Qed.
Lemma field_join w from a b : field w from (a + b) = 2 ^ a * field w (from + a) b + field w from a.
Proof.
  unfold field. rewrite N.pow_add_r, N.mod_mul_r by (apply N.pow_nonzero; discriminate). rewrite div_div. lia.
Qed.

(** ** what decodes *)
Lemma adrp_fields w d p : decodes w (Adrp d p) -> field w 31 1 = 1 /\ field w 24 5 = 16 /\ field w 0 5 = d /\ p = two 21 (4 * field w 5 19 + field w 29 2).
Proof. intro D. remember (Adrp d p) as i eqn:E. destruct D; try discriminate. repeat split; congruence. Qed.
Lemma load_fields w t n o : decodes w (Load t n o) -> field w 22 10 = 997 /\ field w 0 5 = t /\ field w 5 5 = n /\ o = 8 * field w 10 12.
Proof. intro D. remember (Load t n o) as i eqn:E. destruct D; try discriminate. repeat split; congruence. Qed.
Lemma literal_fields w t o : decodes w (Literal t o) -> field w 24 8 = 88 /\ field w 0 5 = t /\ o = (4 * two 19 (field w 5 19))%Z.
Proof. intro D. remember (Literal t o) as i eqn:E. destruct D; try discriminate. repeat split; congruence. Qed.
Lemma br_fields w n : decodes w (Br n) -> field w 10 22 = 3508160 /\ field w 0 5 = 0 /\ field w 5 5 = n.
Proof. intro D. remember (Br n) as i eqn:E. destruct D; try discriminate. repeat split; congruence. Qed.

(** ** the tests of the loop *)
Lemma test_adrp m p : sound m -> (N.land (fetch_opcode m p 0) 0x9f00001f =? N.lor 0x90000000 16) = true <-> exists pages, decodes (instruction m p) (Adrp 16 pages).
Proof.
  intro S. destruct (opcode m p 0 S) as (E & _). rewrite N.mul_0_l, N.add_0_r in E. rewrite N.eqb_eq, land_low by reflexivity. rewrite E, mask_adrp. change (N.lor 0x90000000 16) with (2 ^ 24 * 144 + 16).
  set (w := instruction m p). clearbody w. pose proof (field_bound w 31 1). pose proof (field_bound w 24 5). pose proof (field_bound w 0 5). change (2 ^ 1) with 2 in *. change (2 ^ 5) with 32 in *. change (2 ^ 24) with 16777216.
  split.
  - intro Q. assert (A : field w 31 1 = 1) by lia. assert (B : field w 24 5 = 16) by lia. assert (C : field w 0 5 = 16) by lia. pose proof (d_adrp w A B ltac:(lia)) as D. rewrite C in D. eexists. exact D.
  - intros (pages & D). apply adrp_fields in D. lia.
Qed.
Lemma test_load m p : sound m -> (N.land (fetch_opcode m p 1) 0xffe003ff =? N.lor (N.lor 0xf9400000 (N.shiftl 16 5)) 17) = true <-> exists o, o < 16384 /\ decodes (instruction m (p + 4)) (Load 17 16 o).
Proof.
  intro S. destruct (opcode m p 1 S) as (E & _). change (1 * 4) with 4 in E. rewrite N.eqb_eq, land_low by reflexivity. rewrite E, mask_load. change (N.lor (N.lor 0xf9400000 (N.shiftl 16 5)) 17) with (2 ^ 21 * 1994 + 529).
  set (w := instruction m (p + 4)). clearbody w. assert (J : field w 21 11 = 2 ^ 1 * field w 22 10 + field w 21 1) by exact (field_join w 21 1 10). assert (K : field w 0 10 = 2 ^ 5 * field w 5 5 + field w 0 5) by exact (field_join w 0 5 5).
  assert (L : field w 10 12 = 2 ^ 11 * field w 21 1 + field w 10 11) by exact (field_join w 10 11 1). rewrite J, K.
  pose proof (field_bound w 21 1). pose proof (field_bound w 22 10). pose proof (field_bound w 0 5). pose proof (field_bound w 5 5). pose proof (field_bound w 10 11).
  change (2 ^ 1) with 2 in *. change (2 ^ 5) with 32 in *. change (2 ^ 10) with 1024 in *. change (2 ^ 11) with 2048 in *. change (2 ^ 21) with 2097152.
  split.
  - intro Q. assert (A : field w 22 10 = 997) by lia. assert (B : field w 0 5 = 17) by lia. assert (C : field w 5 5 = 16) by lia. exists (8 * field w 10 12). split; [lia|]. pose proof (d_load w A ltac:(lia) ltac:(lia)) as D. rewrite B, C in D. exact D.
  - intros (o & O & D). apply load_fields in D. lia.
Qed.
Lemma test_br m p i : sound m -> (N.land (fetch_opcode m p i) 0xfffffc1f =? 0xd61f0000) = true <-> field (instruction m (p + i * 4)) 10 22 = 3508160 /\ field (instruction m (p + i * 4)) 0 5 = 0.
Proof.
  intro S. destruct (opcode m p i S) as (E & _). rewrite N.eqb_eq, land_low by reflexivity. rewrite E, mask_br. change 0xd61f0000 with (2 ^ 10 * 3508160).
  set (w := instruction m (p + i * 4)). pose proof (field_bound w 0 5). change (2 ^ 5) with 32 in *. change (2 ^ 10) with 1024. lia.
Qed.
Lemma test_literal m p : sound m -> (N.land (fetch_opcode m p 0) 0xf8000000 =? 0x58000000) = true <-> field (instruction m p) 27 5 = 11.
Proof.
  intro S. destruct (opcode m p 0 S) as (E & _). rewrite N.mul_0_l, N.add_0_r in E. rewrite N.eqb_eq, land_low by reflexivity. rewrite E, mask_literal. change 0x58000000 with (2 ^ 27 * 11). change (2 ^ 27) with 134217728. lia.
Qed.
