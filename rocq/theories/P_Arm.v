(** C87: following jumps on arm64. *)
From Coq Require Import List NArith ZArith Bool.
From Verif Require Import StubModel StubSpec ArmModel ArmSpec ArmProofs2 ArmExamples.
Import ListNotations.
Local Open Scope N_scope.

(** stubs of the linker one behind the other, no more than rounds: followed to their end, where the processor arrives as well *)
Theorem C87_follow : forall m p k t n, sound m -> p < 2 ^ 64 -> chain m p k t -> (k <= n)%nat -> arm_follow m p n = t /\ forall r, exists r', runs m (r, p) (r', t).
Proof. exact follow_ok. Qed.
Print Assumptions C87_follow.
Example C87_follow_example : sound program /\ chain program 0xc1f8a0 2 0x600000 /\ arm_follow program 0xc1f8a0 1 = 0x500000 /\ arm_follow program 0xc1f8a0 32 = 0x600000.
Proof. exact follow_example. Qed.
(** also when there are more: the result is on the way of the processor *)
Theorem C87_on_the_way : forall m p k t n, sound m -> p < 2 ^ 64 -> chain m p k t -> forall r, exists r', runs m (r, p) (r', arm_follow m p n).
Proof. exact follow_part. Qed.
Print Assumptions C87_on_the_way.
Example C87_on_the_way_example : sound program /\ chain program 0xc1f8a0 2 0x600000 /\ arm_follow program 0xc1f8a0 1 = 0x500000.
Proof. split; [exact program_sound|]. split; [exact program_chain|]. vm_compute. reflexivity. Qed.
(** the processor has no choice *)
Theorem C87_processor : forall m s t u, steps m s t -> steps m s u -> t = u.
Proof. exact steps_one. Qed.
Print Assumptions C87_processor.
Example C87_processor_example : steps program (fun _ => 0, 0xc1f8a0) (set_reg (fun _ => 0) 16 0x18f0000, 0xc1f8a4).
Proof.
  change 0x18f0000 with (wrap (Z.of_N (0xc1f8a0 - 0xc1f8a0 mod 4096) + 4096 * 0xcd1)). change 0xc1f8a4 with (0xc1f8a0 + 4). apply s_adrp.
  replace (instruction program 0xc1f8a0) with 0xb0006690 by (vm_compute; reflexivity). exact (d_adrp 0xb0006690 eq_refl eq_refl eq_refl).
Qed.
(** the jump that a stub of h2unit writes is followed to the substitute *)
Theorem C87_patch : forall m src dst, sound m -> src < 2 ^ 64 - 8 -> dst < 2 ^ 64 -> arm_round (arm_set m src dst) src = dst /\ forall r, exists r', runs (arm_set m src dst) (r, src) (r', dst).
Proof. exact patch_ok. Qed.
Print Assumptions C87_patch.
Example C87_patch_example : sound blank /\ arm_round (arm_set blank 0x500000 0x7f0012345678) 0x500000 = 0x7f0012345678.
Proof. split; [exact blank_sound|vm_compute; reflexivity]. Qed.
(** an address table that lies before the code: the page number is not extended with its sign, another address is read *)
Theorem C87_page_before_refuted : exists m p q, sound m /\ decodes (instruction m p) (Adrp 16 (-1)) /\ (forall r, exists r', runs m (r, p) (r', q)) /\ arm_round m p <> q /\ arm_round m p <> p.
Proof. exact before_bad. Qed.
Print Assumptions C87_page_before_refuted.
(** the same for an address shortly before the code *)
Theorem C87_near_before_refuted : exists m p q, sound m /\ decodes (instruction m p) (Literal 17 (-8)) /\ (forall r, exists r', runs m (r, p) (r', q)) /\ arm_round m p <> q /\ arm_round m p <> p.
Proof. exact near_bad. Qed.
Print Assumptions C87_near_before_refuted.
(** the register of the branch is not looked at *)
Theorem C87_register_refuted : exists m p q, sound m /\ q <> p /\ arm_round m p = q /\ forall r, exists r', runs m (r, p) (r', r 3).
Proof. exact register_bad. Qed.
Print Assumptions C87_register_refuted.
