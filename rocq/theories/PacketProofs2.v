From Coq Require Import List NArith ZArith Bool Lia.
From Verif Require Import Base GlobSpec MemcmpModel SockModel SockSpec FailModel MockmsgModel MockmsgSpec PacketModel PacketSpec PacketProofs.
Import ListNotations.
Local Open Scope N_scope.

Lemma size_exact : forall c p said n, addressed c (p_from p) (p_to p) -> N.of_nat (length (p_data p)) < 2147483648 -> c_payload c (p_data p ++ [0]) = Some said -> plain (c_text c) -> c_size c = size_is n ->
  (judge c (Some p) = Some None <-> glob false (c_from c) (p_from p) /\ glob false (c_to c) (p_to p) /\ said = [] /\ Z.of_nat (length (p_data p)) = n).
Proof.
  intros c p said n A L P T S. rewrite (judge_passes c p said A L P T), S. unfold size_is.
  assert (E : (if (Z.of_nat (length (p_data p)) =? n)%Z then [] else [Note None [] [] []]) = [] <-> Z.of_nat (length (p_data p)) = n) by (destruct (Z.eqb_spec (Z.of_nat (length (p_data p))) n); split; intros; auto; try discriminate; contradiction).
  rewrite E. reflexivity.
Qed.
