(** Lists for the cases beside the theorems of C98. *)
From Coq Require Import List NArith Bool Arith.
From Verif Require Import Base MacroModel MacroSpec MacroSpec2 MacroSpec3 MacroProofs16 MacroProofs18 MacroProofs19.
Import ListNotations.
Local Open Scope N_scope.

Lemma packs_parameters : parameters packs.
Proof. split; [exact (proj1 packs_countable)|right; exact cast_bare]. Qed.
Lemma pq_text : text [i_p; TComma; i_q].
Proof. apply text_word; [exact p_word|]. apply text_comma. apply text_word; [exact q_word|constructor]. Qed.
Lemma single_cast : forall v, [words (str "(int)3")] = [v] -> unwrapped v.
Proof. intros v E. assert (X : words (str "(int)3") = v) by congruence. rewrite <- X. exact cast_bare. Qed.
Lemma six_nothing : exists nm vs, value nm /\ parameters vs /\ length vs = 6%nat /\ becomes (macro_use (str "H2MATCHER") (nm :: vs)) [].
Proof.
  assert (P : parameters (repeat [i_p] 6)).
  { split; [|right; exact (one_bare _ p_word)]. apply Forall_forall. intros v H. apply repeat_spec in H. subst v. exact (proj1 (one_bare _ p_word)). }
  exists [i_q], (repeat [i_p] 6). split; [exact (proj1 (one_bare _ q_word))|]. split; [exact P|]. split; [reflexivity|]. exact (six_becomes [i_q] (repeat [i_p] 6) (proj1 (one_bare _ q_word)) P eq_refl).
Qed.
