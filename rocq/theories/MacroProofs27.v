(** Arguments for the cases beside the theorems of C100. *)
From Coq Require Import List NArith Bool Arith Lia.
From Verif Require Import Base MacroModel MacroSpec MacroSpec2 MacroSpec4 MacroSpec5 MacroProofs15 MacroProofs16 MacroProofs18 MacroProofs21 MacroProofs24.
Import ListNotations.
Local Open Scope N_scope.

Lemma three_stop : forall n, preprocess (10 + n) (macro_use (str "H2OK") [[i_p]; [i_p]; [i_q]]) = None.
Proof. intro n. vm_compute. reflexivity. Qed.
Lemma three_nothing : exists e a b, value e /\ value a /\ value b /\ forall out, ~ becomes (macro_use (str "H2OK") [e; a; b]) out.
Proof.
  exists [i_p], [i_p], [i_q]. split; [exact p_value|]. split; [exact p_value|]. split; [exact q_value|]. intros out B. destruct (B [] [] ltac:(constructor) ltac:(constructor)) as [f H].
  specialize (H (10 + f)%nat ltac:(lia)). cbn [app] in H. rewrite app_nil_r in H. rewrite three_stop in H. discriminate H.
Qed.
