From Coq Require Import List.
From Verif Require Import Base ExprModel ExprSpec ExprSpec2 ExprProofs2.

Lemma eval_worth : forall A t, eval A t = worth A t.
Proof. intros A t. induction t as [s|f|f a IHa|f a IHa b IHb]; cbn [eval worth]; congruence. Qed.
Lemma evaluate_worth : forall (A : alg) ts s v, written ts s -> (evaluate A s = Some v <-> exists t, derives LList ts t /\ v = worth A t).
Proof.
  intros A ts s v W. rewrite (evaluate_written A ts s v W). split; intros [t [D E]]; exists t; (split; [exact D|]); [rewrite <- eval_worth | rewrite eval_worth]; exact E.
Qed.
