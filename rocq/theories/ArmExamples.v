(** Cases for the theorems on following jumps on arm64. *)
From Coq Require Import List NArith ZArith Bool Lia.
From Verif Require Import StubModel StubSpec ArmModel ArmSpec ArmProofs ArmProofs2.
Import ListNotations.
Local Open Scope N_scope.

(** memory with zero everywhere, and with instructions or an address put somewhere *)
Definition blank : mem := fun _ => 0.
Definition words (m : mem) (a : N) (ws : list N) : mem := put m a (concat (map (le 4) ws)).
Definition slot (m : mem) (a v : N) : mem := put m a (le 8 v).
Lemma put_sound m a bs : sound m -> Forall (fun b => b < 256) bs -> sound (put m a bs).
Proof.
  intros S F x. unfold put. destruct ((a <=? x) && _); [|apply S]. set (i := N.to_nat (x - a)). clearbody i. destruct (Nat.lt_ge_cases i (length bs)) as [L|L]; [rewrite Forall_forall in F; apply F, nth_In, L|rewrite nth_overflow by exact L; reflexivity].
Qed.
Lemma le_bytes n v : Forall (fun b => b < 256) (le n v).
Proof. revert v. induction n as [|n IH]; intro v; [constructor|]. cbn [le]. constructor; [apply N.mod_lt; discriminate|apply IH]. Qed.
Lemma words_sound m a ws : sound m -> sound (words m a ws).
Proof. intro S. apply put_sound; [exact S|]. induction ws as [|w ws IH]; [constructor|]. cbn [map concat]. apply Forall_app. split; [apply le_bytes|exact IH]. Qed.
Lemma slot_sound m a v : sound m -> sound (slot m a v).
Proof. intro S. apply put_sound; [exact S|apply le_bytes]. Qed.
Lemma blank_sound : sound blank. Proof. intro a. reflexivity. Qed.

(** printf in the procedure linkage table (the one in the comment of the source), then a patched function, then code *)
Definition program : mem :=
  words (arm_set (slot (words blank 0xc1f8a0 [0xb0006690; 0xf941ee11; 0x910f6210; 0xd61f0220]) 0x18f03d8 0x500000) 0x500000 0x600000) 0x600000 [0xa9bf7bfd; 0x910003fd].
Lemma program_sound : sound program.
Proof. apply words_sound, patch_sound, slot_sound, words_sound, blank_sound. Qed.
Lemma program_first : trampoline program 0xc1f8a0 0x500000.
Proof.
  assert (T : trampoline program 0xc1f8a0 (quad program (wrap (Z.of_N (0xc1f8a0 - 0xc1f8a0 mod 4096) + 4096 * 0xcd1 + Z.of_N 984)))).
  { apply (t_plt_add program 0xc1f8a0 0xcd1%Z 984 984); [|lia| |reflexivity| |].
    - replace (instruction program 0xc1f8a0) with 0xb0006690 by (vm_compute; reflexivity). exact (d_adrp 0xb0006690 eq_refl eq_refl eq_refl).
    - replace (instruction program (0xc1f8a0 + 4)) with 0xf941ee11 by (vm_compute; reflexivity). exact (d_load 0xf941ee11 eq_refl eq_refl eq_refl).
    - replace (instruction program (0xc1f8a0 + 8)) with 0x910f6210 by (vm_compute; reflexivity). exact (d_add 0x910f6210 eq_refl eq_refl eq_refl).
    - replace (instruction program (0xc1f8a0 + 12)) with 0xd61f0220 by (vm_compute; reflexivity). exact (d_br 0xd61f0220 eq_refl eq_refl eq_refl). }
  replace (quad program _) with 0x500000 in T by (vm_compute; reflexivity). exact T.
Qed.
Lemma program_second : trampoline program 0x500000 0x600000.
Proof.
  assert (T : trampoline program 0x500000 (quad program (wrap (Z.of_N 0x500000 + 8)))).
  { apply t_near; [|discriminate|].
    - replace (instruction program 0x500000) with 0x58000051 by (vm_compute; reflexivity). exact (d_literal 0x58000051 eq_refl eq_refl).
    - replace (instruction program (0x500000 + 4)) with 0xd61f0220 by (vm_compute; reflexivity). exact (d_br 0xd61f0220 eq_refl eq_refl eq_refl). }
  replace (quad program _) with 0x600000 in T by (vm_compute; reflexivity). exact T.
Qed.
Lemma program_last : ordinary program 0x600000.
Proof.
  split.
  - intros ((pages & A) & _). apply adrp_fields in A. replace (instruction program 0x600000) with 0xa9bf7bfd in A by (vm_compute; reflexivity). destruct A as (_ & A & _). vm_compute in A. discriminate.
  - intros (A & _). replace (instruction program 0x600000) with 0xa9bf7bfd in A by (vm_compute; reflexivity). vm_compute in A. discriminate.
Qed.
Lemma program_chain : chain program 0xc1f8a0 2 0x600000.
Proof. eapply c_hop; [exact program_first|]. eapply c_hop; [exact program_second|]. apply c_end, program_last. Qed.
Lemma follow_example : sound program /\ chain program 0xc1f8a0 2 0x600000 /\ arm_follow program 0xc1f8a0 1 = 0x500000 /\ arm_follow program 0xc1f8a0 32 = 0x600000.
Proof. split; [exact program_sound|]. split; [exact program_chain|]. split; [vm_compute; reflexivity|vm_compute; reflexivity]. Qed.

(** a table of addresses one page before the code *)
Definition before : mem := slot (words blank 0x403000 [0xf0fffff0; 0xf9400211; 0xd61f0220]) 0x402000 0x1234.
Lemma before_bad : exists m p q, sound m /\ decodes (instruction m p) (Adrp 16 (-1)) /\ (forall r, exists r', runs m (r, p) (r', q)) /\ arm_round m p <> q /\ arm_round m p <> p.
Proof.
  assert (A : decodes (instruction before 0x403000) (Adrp 16 (-1))) by (replace (instruction before 0x403000) with 0xf0fffff0 by (vm_compute; reflexivity); exact (d_adrp 0xf0fffff0 eq_refl eq_refl eq_refl)).
  exists before, 0x403000, 0x1234. split; [apply slot_sound, words_sound, blank_sound|]. split; [exact A|]. split; [|split; [vm_compute; discriminate|vm_compute; discriminate]].
  assert (B : decodes (instruction before (0x403000 + 4)) (Load 17 16 0)) by (replace (instruction before (0x403000 + 4)) with 0xf9400211 by (vm_compute; reflexivity); exact (d_load 0xf9400211 eq_refl eq_refl eq_refl)).
  assert (C : decodes (instruction before (0x403000 + 4 + 4)) (Br 17)) by (replace (instruction before (0x403000 + 4 + 4)) with 0xd61f0220 by (vm_compute; reflexivity); exact (d_br 0xd61f0220 eq_refl eq_refl eq_refl)).
  intro r. eexists. eapply r_step; [apply s_adrp; exact A|]. eapply r_step; [apply s_load; exact B|]. eapply r_step; [apply s_br; exact C|]. rewrite !set_same.
  replace (quad before _) with 0x1234 by (vm_compute; reflexivity). apply r_done.
Qed.
(** an address eight bytes before the code *)
Definition near_before : mem := slot (words blank 0x403008 [0x58ffffd1; 0xd61f0220]) 0x403000 0x1234.
Lemma near_bad : exists m p q, sound m /\ decodes (instruction m p) (Literal 17 (-8)) /\ (forall r, exists r', runs m (r, p) (r', q)) /\ arm_round m p <> q /\ arm_round m p <> p.
Proof.
  assert (A : decodes (instruction near_before 0x403008) (Literal 17 (-8))) by (replace (instruction near_before 0x403008) with 0x58ffffd1 by (vm_compute; reflexivity); exact (d_literal 0x58ffffd1 eq_refl eq_refl)).
  exists near_before, 0x403008, 0x1234. split; [apply slot_sound, words_sound, blank_sound|]. split; [exact A|]. split; [|split; [vm_compute; discriminate|vm_compute; discriminate]].
  assert (C : decodes (instruction near_before (0x403008 + 4)) (Br 17)) by (replace (instruction near_before (0x403008 + 4)) with 0xd61f0220 by (vm_compute; reflexivity); exact (d_br 0xd61f0220 eq_refl eq_refl eq_refl)).
  intro r. eexists. eapply r_step; [apply s_literal; exact A|]. eapply r_step; [apply s_br; exact C|]. rewrite !set_same. replace (quad near_before _) with 0x1234 by (vm_compute; reflexivity). apply r_done.
Qed.
(** the branch goes to another register than the one loaded *)
Definition other_register : mem := slot (words blank 0x403000 [0x90000010; 0xf9401211; 0xd61f0060]) 0x403020 0x1234.
Lemma register_bad : exists m p q, sound m /\ q <> p /\ arm_round m p = q /\ forall r, exists r', runs m (r, p) (r', r 3).
Proof.
  exists other_register, 0x403000, 0x1234. split; [apply slot_sound, words_sound, blank_sound|]. split; [discriminate|]. split; [vm_compute; reflexivity|].
  assert (A : decodes (instruction other_register 0x403000) (Adrp 16 0)) by (replace (instruction other_register 0x403000) with 0x90000010 by (vm_compute; reflexivity); exact (d_adrp 0x90000010 eq_refl eq_refl eq_refl)).
  assert (B : decodes (instruction other_register (0x403000 + 4)) (Load 17 16 32)) by (replace (instruction other_register (0x403000 + 4)) with 0xf9401211 by (vm_compute; reflexivity); exact (d_load 0xf9401211 eq_refl eq_refl eq_refl)).
  assert (C : decodes (instruction other_register (0x403000 + 4 + 4)) (Br 3)) by (replace (instruction other_register (0x403000 + 4 + 4)) with 0xd61f0060 by (vm_compute; reflexivity); exact (d_br 0xd61f0060 eq_refl eq_refl eq_refl)).
  intro r. eexists. eapply r_step; [apply s_adrp; exact A|]. eapply r_step; [apply s_load; exact B|]. eapply r_step; [apply s_br; exact C|]. rewrite (set_other _ 17 _ 3) by discriminate. rewrite (set_other _ 16 _ 3) by discriminate. apply r_done.
Qed.
(** each state has at most one next state, so that "gets there" cannot be read two ways *)
Lemma decodes_one w a b : decodes w a -> decodes w b -> a = b.
Proof.
  intros A B.
  assert (J1 : field w 22 10 = 4 * field w 24 8 + field w 22 2) by exact (field_join w 22 2 8).
  assert (J2 : field w 24 8 = 128 * field w 31 1 + field w 24 7) by exact (field_join w 24 7 1).
  assert (J3 : field w 24 7 = 32 * field w 29 2 + field w 24 5) by exact (field_join w 24 5 2).
  assert (J4 : field w 10 22 = 4096 * field w 22 10 + field w 10 12) by exact (field_join w 10 12 10).
  pose proof (field_bound w 22 2). pose proof (field_bound w 24 7). pose proof (field_bound w 24 5). pose proof (field_bound w 31 1). pose proof (field_bound w 29 2). pose proof (field_bound w 10 12).
  change (2 ^ 2) with 4 in *. change (2 ^ 7) with 128 in *. change (2 ^ 5) with 32 in *. change (2 ^ 1) with 2 in *. change (2 ^ 12) with 4096 in *.
  destruct A; destruct B; try reflexivity; exfalso; lia.
Qed.
Lemma steps_one m s t u : steps m s t -> steps m s u -> t = u.
Proof.
  intros A B. destruct A; inversion B; subst; match goal with H1 : decodes ?w ?a, H2 : decodes ?w ?b |- _ => pose proof (decodes_one w a b H1 H2) as E end; inversion E; subst; reflexivity.
Qed.
