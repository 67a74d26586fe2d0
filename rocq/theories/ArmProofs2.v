(** Proofs about following jumps on arm64: rounds, and the processor. *)
From Coq Require Import List NArith ZArith Bool Lia.
From Verif Require Import StubModel StubSpec ArmModel ArmSpec ArmProofs.
Import ListNotations.
Local Open Scope N_scope.

Lemma lor_join a b c : c < 2 ^ b -> N.lor (N.shiftl a b) c = 2 ^ b * a + c.
Proof.
  intro C. rewrite N.shiftl_mul_pow2, (N.mul_comm a). rewrite <- N.lxor_lor; [symmetry; apply N.add_nocarry_lxor|]; apply N.bits_inj; intro i; rewrite N.land_spec, N.bits_0;
    (destruct (N.lt_ge_cases i b) as [I|I]; [rewrite N.mul_comm, N.mul_pow2_bits_low by exact I; reflexivity|]);
    replace (N.testbit c i) with false; try apply andb_false_r; symmetry; (destruct (N.eq_dec c 0) as [->|Z0]; [apply N.bits_0|]); apply N.bits_above_log2; apply (N.lt_le_trans _ b); try exact I; apply N.log2_lt_pow2; lia.
Qed.
Lemma wrap_N x : wrap (Z.of_N x) = x mod 2 ^ 64.
Proof. unfold wrap. change (2 ^ 64)%Z with (Z.of_N (2 ^ 64)). rewrite <- N2Z.inj_mod, N2Z.id. reflexivity. Qed.
Lemma wrap_wrap x y : wrap (Z.of_N (wrap x) + y) = wrap (x + y).
Proof. unfold wrap. rewrite Z2N.id by (apply Z.mod_pos_bound; lia). rewrite Zplus_mod_idemp_l. reflexivity. Qed.
Lemma extend_positive v : v < 2 ^ 20 -> sign_extend v 21 = v.
Proof.
  intro H. unfold sign_extend. rewrite N.shiftl_mul_pow2. change (64 - 21) with 43. rewrite N.mod_small by (change (2 ^ 20) with 1048576 in H; change (2 ^ 43) with 8796093022208; change (2 ^ 64) with 18446744073709551616; lia).
  destruct (N.leb_spec (2 ^ 63) (v * 2 ^ 43)) as [L|L]; [exfalso; change (2 ^ 20) with 1048576 in H; change (2 ^ 43) with 8796093022208 in L; change (2 ^ 63) with 9223372036854775808 in L; lia|]. apply N.lor_0_r.
Qed.
Lemma page_base p : p < 2 ^ 64 -> N.land p 0xfffffffffffff000 = p - p mod 4096.
Proof.
  intro H. replace 0xfffffffffffff000 with (2 ^ 12 * N.ones 52 + 0) by reflexivity. rewrite land_split by reflexivity. rewrite N.land_0_r, N.land_ones, N.add_0_r.
  rewrite N.mod_small by (apply N.div_lt_upper_bound; [discriminate|exact H]). change (2 ^ 12) with 4096. pose proof (N.div_mod p 4096 ltac:(discriminate)). clear H. revert H0. generalize (p / 4096) (p mod 4096). intros a b E. lia.
Qed.

Section S.
Variable m : mem.
Hypothesis S : sound m.

Lemma round_page p pages o : p < 2 ^ 64 -> decodes (instruction m p) (Adrp 16 pages) -> (0 <= pages)%Z -> decodes (instruction m (p + 4)) (Load 17 16 o) -> o < 16384 ->
  (field (instruction m (p + 8)) 10 22 = 3508160 /\ field (instruction m (p + 8)) 0 5 = 0) \/ (field (instruction m (p + 12)) 10 22 = 3508160 /\ field (instruction m (p + 12)) 0 5 = 0) ->
  arm_round m p = quad m (wrap (Z.of_N (p - p mod 4096) + 4096 * pages + Z.of_N o)).
Proof.
  intros B A P L O R. unfold arm_round.
  assert (T1 : (N.land (fetch_opcode m p 0) 0x9f00001f =? N.lor 0x90000000 16) = true) by (apply test_adrp; [exact S|exists pages; exact A]). rewrite T1.
  assert (T2 : (N.land (fetch_opcode m p 1) 0xffe003ff =? N.lor (N.lor 0xf9400000 (N.shiftl 16 5)) 17) = true) by (apply test_load; [exact S|exists o; auto]). rewrite T2.
  assert (T3 : ((N.land (fetch_opcode m p 2) 0xfffffc1f =? 0xd61f0000) || (N.land (fetch_opcode m p 3) 0xfffffc1f =? 0xd61f0000)) = true).
  { apply orb_true_iff. destruct R as [R|R]; [left; apply (test_br m p 2 S)|right; apply (test_br m p 3 S)]; exact R. }
  rewrite T3. cbv zeta. rewrite stored. f_equal. unfold low_ones. change 3 with (N.ones 2) at 1. rewrite !field_land.
  destruct (opcode m p 0 S) as (E0 & _). rewrite N.mul_0_l, N.add_0_r in E0. destruct (opcode m p 1 S) as (E1 & _). change (1 * 4) with 4 in E1.
  rewrite <- (field_low (fetch_opcode m p 0) 5 19), <- (field_low (fetch_opcode m p 0) 29 2), <- (field_low (fetch_opcode m p 1) 10 12) by discriminate. rewrite E0, E1.
  apply adrp_fields in A. destruct A as (_ & _ & _ & ->). apply load_fields in L. destruct L as (_ & _ & _ & ->). set (w := instruction m p) in *. set (v := instruction m (p + 4)) in *.
  pose proof (field_bound w 29 2). pose proof (field_bound w 5 19). rewrite lor_join by assumption. change (2 ^ 2) with 4 in *.
  assert (V : 4 * field w 5 19 + field w 29 2 < 2 ^ 20 /\ two 21 (4 * field w 5 19 + field w 29 2) = Z.of_N (4 * field w 5 19 + field w 29 2)).
  { unfold two in *. change (21 - 1) with 20 in *. change (2 ^ Z.of_N 21)%Z with 2097152%Z in *. change (2 ^ 19) with 524288 in *. change (2 ^ 20) with 1048576 in *.
    destruct (N.ltb_spec (4 * field w 5 19 + field w 29 2) 1048576); [split; [assumption|reflexivity]|lia]. }
  destruct V as (V1 & V2). rewrite extend_positive by exact V1. rewrite V2. rewrite !N.shiftl_mul_pow2, page_base by exact B.
  rewrite (N.mod_small (_ * 2 ^ 12)) by (change (2 ^ 20) with 1048576 in V1; change (2 ^ 12) with 4096; change (2 ^ 64) with 18446744073709551616; lia).
  rewrite <- wrap_N. f_equal. change (2 ^ 12) with 4096. change (2 ^ 3) with 8. lia.
Qed.
Lemma round_near p o : decodes (instruction m p) (Literal 17 o) -> (0 <= o)%Z -> decodes (instruction m (p + 4)) (Br 17) -> arm_round m p = quad m (wrap (Z.of_N p + o)).
Proof.
  intros L O B. apply literal_fields in L. destruct L as (L1 & L2 & ->). unfold arm_round.
  assert (J : field (instruction m p) 24 8 = 2 ^ 3 * field (instruction m p) 27 5 + field (instruction m p) 24 3) by exact (field_join _ 24 3 5).
  assert (J2 : field (instruction m p) 5 22 = 2 ^ 19 * field (instruction m p) 24 3 + field (instruction m p) 5 19) by exact (field_join _ 5 19 3).
  pose proof (field_bound (instruction m p) 24 3) as J3. change (2 ^ 3) with 8 in *.
  assert (T1 : (N.land (fetch_opcode m p 0) 0x9f00001f =? N.lor 0x90000000 16) = false).
  { apply not_true_iff_false. rewrite (test_adrp m p S). intros (pages & A). apply adrp_fields in A. lia. }
  rewrite T1.
  assert (T2 : (N.land (fetch_opcode m p 0) 0xf8000000 =? 0x58000000) = true) by (apply test_literal; [exact S|lia]). rewrite T2.
  assert (T3 : (N.land (fetch_opcode m p 1) 0xfffffc1f =? 0xd61f0000) = true) by (apply (test_br m p 1 S); apply br_fields in B; change (p + 1 * 4) with (p + 4); tauto). rewrite T3. cbv zeta. rewrite stored. f_equal.
  rewrite land_low by reflexivity. destruct (opcode m p 0 S) as (E0 & _). rewrite N.mul_0_l, N.add_0_r in E0. rewrite E0, mask_near, J2.
  replace (field (instruction m p) 24 3) with 0 by lia. rewrite N.shiftr_div_pow2. rewrite <- wrap_N. f_equal.
  unfold two in *. change (19 - 1) with 18 in *. change (2 ^ Z.of_N 19)%Z with 524288%Z in *. change (2 ^ 18) with 262144 in *. pose proof (field_bound (instruction m p) 5 19) as Bd. change (2 ^ 19) with 524288 in *.
  destruct (N.ltb_spec (field (instruction m p) 5 19) 262144) as [Q|Q]; [|lia]. rewrite N.mul_0_r, N.add_0_l. change (2 ^ 5) with (4 * 2 ^ 3). rewrite <- N.mul_assoc, (N.mul_comm (2 ^ 3)), N.mul_assoc, N.div_mul by discriminate. lia.
Qed.
Lemma round_ordinary p : ordinary m p -> arm_round m p = p.
Proof.
  intros (O1 & O2). unfold arm_round. destruct (N.land (fetch_opcode m p 0) 0x9f00001f =? N.lor 0x90000000 16) eqn:T1.
  - destruct (N.land (fetch_opcode m p 1) 0xffe003ff =? N.lor (N.lor 0xf9400000 (N.shiftl 16 5)) 17) eqn:T2; [|reflexivity]. exfalso. apply O1. split; [apply test_adrp; assumption|]. apply (test_load m p S) in T2. destruct T2 as (o & _ & D). exists o. exact D.
  - destruct (N.land (fetch_opcode m p 0) 0xf8000000 =? 0x58000000) eqn:T2; [|reflexivity]. destruct (N.land (fetch_opcode m p 1) 0xfffffc1f =? 0xd61f0000) eqn:T3; [|reflexivity]. exfalso. apply O2.
    apply (test_literal m p S) in T2. apply (test_br m p 1 S) in T3. change (p + 1 * 4) with (p + 4) in T3. tauto.
Qed.
Lemma round_hop p q : p < 2 ^ 64 -> trampoline m p q -> arm_round m p = q.
Proof.
  intros B [pages o A P L O R|pages o i A P L O I R|o L O R].
  - apply round_page; try assumption. left. apply br_fields in R. tauto.
  - apply round_page; try assumption. right. apply br_fields in R. tauto.
  - apply round_near; assumption.
Qed.
Lemma hop_bound p q : trampoline m p q -> q < 2 ^ 64.
Proof. intros [?|?|?]; apply quad_bound; exact S. Qed.
Lemma chain_follow p k t n : p < 2 ^ 64 -> chain m p k t -> (k <= n)%nat -> arm_follow m p n = t.
Proof.
  intros B C. revert B n. induction C as [p O|p q k t H C IH]; intros B n L.
  - clear L. induction n as [|n IH]; [reflexivity|]. cbn [arm_follow]. rewrite (round_ordinary p O). exact IH.
  - destruct n as [|n]; [lia|]. cbn [arm_follow]. rewrite (round_hop p q B H). apply IH; [exact (hop_bound p q H)|lia].
Qed.
End S.

(** ** the processor *)
Lemma set_same r d v : set_reg r d v d = v. Proof. unfold set_reg. rewrite N.eqb_refl. reflexivity. Qed.
Lemma set_other r d v x : x <> d -> set_reg r d v x = r x. Proof. intro H. unfold set_reg. destruct (N.eqb_spec x d); congruence. Qed.
Lemma runs_trans m s t u : runs m s t -> runs m t u -> runs m s u.
Proof. intro R. revert u. induction R; intros v H2; [exact H2|]. eapply r_step; [eassumption|]. auto. Qed.
Lemma hop_runs m p q r : trampoline m p q -> exists r', runs m (r, p) (r', q).
Proof.
  intros [pages o A P L O R|pages o i A P L O I R|o L O R].
  - eexists. eapply r_step; [apply s_adrp; exact A|]. eapply r_step; [apply s_load; exact L|]. eapply r_step; [apply s_br; rewrite <- N.add_assoc; exact R|]. rewrite !set_same. rewrite N2Z.inj_add, wrap_wrap. apply r_done.
  - eexists. eapply r_step; [apply s_adrp; exact A|]. eapply r_step; [apply s_load; exact L|]. eapply r_step; [apply s_add; rewrite <- N.add_assoc; exact I|]. eapply r_step; [apply s_br; rewrite <- !N.add_assoc; exact R|].
    rewrite (set_other _ 16 _ 17) by discriminate. rewrite !set_same. rewrite N2Z.inj_add, wrap_wrap. apply r_done.
  - eexists. eapply r_step; [apply s_literal; exact L|]. eapply r_step; [apply s_br; exact R|]. rewrite !set_same. apply r_done.
Qed.
Lemma chain_runs m p k t : chain m p k t -> forall r, exists r', runs m (r, p) (r', t).
Proof.
  intro C. induction C as [p O|p q k t H C IH]; intro r; [exists r; apply r_done|]. destruct (hop_runs m p q r H) as (r1 & R1). destruct (IH r1) as (r2 & R2). exists r2. eapply runs_trans; eassumption.
Qed.
Lemma follow_ok m p k t n : sound m -> p < 2 ^ 64 -> chain m p k t -> (k <= n)%nat -> arm_follow m p n = t /\ forall r, exists r', runs m (r, p) (r', t).
Proof. intros S B C L. split; [apply (chain_follow m S p k t n B C L)|apply (chain_runs m p k t C)]. Qed.
(** the rest of the way may be more stubs than rounds: still the processor gets there *)
Lemma follow_part m p k t n : sound m -> p < 2 ^ 64 -> chain m p k t -> forall r, exists r', runs m (r, p) (r', arm_follow m p n).
Proof.
  intros S B C. revert p k C B. induction n as [|n IH]; intros p k C B r; [exists r; apply r_done|]. cbn [arm_follow]. destruct C as [p O|p q k t H C].
  - rewrite (round_ordinary m S p O). exact (IH p 0%nat (c_end m p O) B r).
  - rewrite (round_hop m S p q B H). destruct (hop_runs m p q r H) as (r1 & R1). destruct (IH q k C (hop_bound m S p q H) r1) as (r2 & R2). exists r2. eapply runs_trans; eassumption.
Qed.

(** ** the patch that stubs write *)
Lemma patch_word m src dst i b : nth_error (arm_code dst) i = Some b -> arm_set m src dst (src + N.of_nat i) = b.
Proof.
  intro H. unfold arm_set, put. assert (L : (i < length (arm_code dst))%nat) by (apply nth_error_Some; congruence). 
  replace ((src <=? src + N.of_nat i) && (src + N.of_nat i <? src + N.of_nat (length (arm_code dst)))) with true by (symmetry; apply andb_true_iff; rewrite N.leb_le, N.ltb_lt; lia).
  replace (N.to_nat (src + N.of_nat i - src)) with i by lia. apply nth_error_nth. exact H.
Qed.
Lemma patch_first m src dst : instruction (arm_set m src dst) src = 0x58000051.
Proof.
  unfold instruction. pose proof (patch_word m src dst 0 0x51 eq_refl) as A. pose proof (patch_word m src dst 1 0 eq_refl) as B. pose proof (patch_word m src dst 2 0 eq_refl) as C. pose proof (patch_word m src dst 3 0x58 eq_refl) as D.
  change (N.of_nat 0) with 0 in A. rewrite N.add_0_r in A. change (N.of_nat 1) with 1 in B. change (N.of_nat 2) with 2 in C. change (N.of_nat 3) with 3 in D. rewrite A, B, C, D. reflexivity.
Qed.
Lemma patch_second m src dst : instruction (arm_set m src dst) (src + 4) = 0xD61F0220.
Proof.
  unfold instruction. rewrite <- !N.add_assoc. pose proof (patch_word m src dst 4 0x20 eq_refl) as A. pose proof (patch_word m src dst 5 2 eq_refl) as B. pose proof (patch_word m src dst 6 0x1f eq_refl) as C. pose proof (patch_word m src dst 7 0xd6 eq_refl) as D.
  change (N.of_nat 4) with 4 in A. change (N.of_nat 5) with 5 in B. change (N.of_nat 6) with 6 in C. change (N.of_nat 7) with 7 in D. change (4 + 1) with 5. change (4 + 2) with 6. change (4 + 3) with 7. rewrite A, B, C, D. reflexivity.
Qed.
Lemma le_value n v : v < 256 ^ N.of_nat n -> unle (le n v) = v.
Proof.
  revert v. induction n as [|n IH]; intros v H; [cbn in *; lia|]. cbn [le unle]. rewrite Nat2N.inj_succ, N.pow_succ_r' in H. rewrite IH by (apply N.div_lt_upper_bound; [discriminate|exact H]). pose proof (N.div_mod v 256 ltac:(discriminate)). lia.
Qed.
Lemma patch_address m src dst : dst < 2 ^ 64 -> quad (arm_set m src dst) (src + 8) = dst.
Proof.
  intro H. rewrite <- stored. rewrite <- (le_value 8 dst) at 2 by exact H. f_equal. unfold get. cbn [seq map le].
  assert (P : forall i b, nth_error (le 8 dst) i = Some b -> arm_set m src dst (src + 8 + N.of_nat i) = b).
  { intros i b N1. replace (src + 8 + N.of_nat i) with (src + N.of_nat (8 + i)) by lia. apply patch_word. exact N1. }
  pose proof (P 0%nat _ eq_refl) as P0. pose proof (P 1%nat _ eq_refl) as P1. pose proof (P 2%nat _ eq_refl) as P2. pose proof (P 3%nat _ eq_refl) as P3. pose proof (P 4%nat _ eq_refl) as P4. pose proof (P 5%nat _ eq_refl) as P5. pose proof (P 6%nat _ eq_refl) as P6. pose proof (P 7%nat _ eq_refl) as P7.
  rewrite P0, P1, P2, P3, P4, P5, P6, P7. reflexivity.
Qed.
Lemma patch_sound m src dst : sound m -> sound (arm_set m src dst).
Proof.
  intros S a. unfold arm_set, put. destruct ((src <=? a) && _); [|apply S]. set (i := N.to_nat (a - src)). clearbody i.
  assert (F : Forall (fun b => b < 256) (arm_code dst)) by (unfold arm_code; cbn [le app N.lor]; repeat (apply Forall_cons; [apply N.mod_lt; discriminate|]); constructor).
  destruct (Nat.lt_ge_cases i (length (arm_code dst))) as [L|L]; [rewrite Forall_forall in F; apply F, nth_In, L|rewrite nth_overflow by exact L; reflexivity].
Qed.
Lemma patch_hop m src dst : src < 2 ^ 64 - 8 -> dst < 2 ^ 64 -> trampoline (arm_set m src dst) src dst.
Proof.
  intros B H. assert (T : trampoline (arm_set m src dst) src (quad (arm_set m src dst) (wrap (Z.of_N src + 8)))).
  { apply t_near; [|discriminate|].
    - rewrite patch_first. exact (d_literal 0x58000051 eq_refl eq_refl).
    - rewrite patch_second. exact (d_br 0xD61F0220 eq_refl eq_refl eq_refl). }
  assert (W : wrap (Z.of_N src + 8) = src + 8). { change (Z.of_N src + 8)%Z with (Z.of_N src + Z.of_N 8)%Z. rewrite <- N2Z.inj_add, wrap_N, N.mod_small by lia. reflexivity. }
  rewrite W, patch_address in T by exact H. exact T.
Qed.
Lemma patch_ok m src dst : sound m -> src < 2 ^ 64 - 8 -> dst < 2 ^ 64 -> arm_round (arm_set m src dst) src = dst /\ forall r, exists r', runs (arm_set m src dst) (r, src) (r', dst).
Proof.
  intros S B H. pose proof (patch_hop m src dst B H) as T. split; [apply round_hop; [apply patch_sound; exact S|lia|exact T]|]. intro r. apply (hop_runs _ _ _ r T).
Qed.
