(** Final theorems about shared handles (property C10). *)
From Coq Require Import List ZArith Bool Arith Lia.
From Verif Require Import SharedPtrModel SharedPtrSpec SharedPtrProofs.
Import ListNotations.

(** After any well-formed program (hence also after every prefix of one) no undefined behaviour has happened, and each
    object handed over was destroyed exactly once if no handle designates it any more, and not at all otherwise. *)
Theorem C10_destroyed_exactly_once : forall os, well_formed os ->
  exists st, run init os = Some st /\
    forall x, In x (adopted os) ->
      (held st x -> count_occ Nat.eq_dec (deleted (mm st)) x = 0) /\
      (~ held st x -> count_occ Nat.eq_dec (deleted (mm st)) x = 1).
Proof. exact destroyed_exactly_once. Qed.
Print Assumptions C10_destroyed_exactly_once.
Definition ex_prog : list op :=
  [New 1 (Some 70); Copy 2 1; New 3 (Some 71); Assign 1 3; Assign 3 3; Drop 2; AssignNew 1 72; Reset 1; New 4 None; Copy 5 4].
Example C10_destroyed_exactly_once_ex : well_formed ex_prog /\
  option_map (fun st => deleted (mm st)) (run init ex_prog) = Some [72; 70].
Proof.
  split; [|reflexivity]. split; [exact I|]. repeat constructor; simpl; intuition discriminate.
Qed.

Theorem C10_only_adopted_destroyed : forall os st, well_formed os -> run init os = Some st ->
  forall x, In x (deleted (mm st)) -> In x (adopted os).
Proof. exact only_adopted_destroyed. Qed.
Print Assumptions C10_only_adopted_destroyed.

(** the boolean conversion tells whether the handle designates an object *)
Theorem C10_bool_conversion : forall os st h v, well_formed os -> run init os = Some st -> In (h, v) (handles st) ->
  (sp_bool (mm st) v = true <-> px v <> None).
Proof. exact bool_conversion. Qed.
Print Assumptions C10_bool_conversion.
Example C10_bool_conversion_ex :
  option_map (fun st => map (fun p => (fst p, sp_bool (mm st) (snd p))) (handles st)) (run init ex_prog)
  = Some [(5, false); (4, false); (1, false); (3, true)].
Proof. reflexivity. Qed.
