(** C32 and C33: OK and KO; traversal of failure trees. *)
From Coq Require Import List ZArith Bool Permutation Lia.
From Verif Require Import FailModel FailSpec FailProofs.
Import ListNotations.
Local Open Scope Z_scope.

(** C32: for the same matcher result KO passes exactly when OK fails *)
Theorem C32_complement : forall f n, fst (assertion true f n) = Null <-> fst (assertion false f n) <> Null.
Proof. intros f n. cbn [fst assertion]. rewrite !stash_null. reflexivity. Qed.
Print Assumptions C32_complement.
(** OK passes exactly when the matcher found nothing *)
Theorem C32_ok : forall f n, fst (assertion false f n) = Null <-> f = Null.
Proof. exact (fun f _ => stash_null false f). Qed.
Print Assumptions C32_ok.
Example C32_example : fst (assertion false (Fail 7 0 Null (Fail 8 1 Null Null)) (0, 0, 0)) <> Null /\ fst (assertion true (Fail 7 0 Null (Fail 8 1 Null Null)) (0, 0, 0)) = Null.
Proof. split; [discriminate|reflexivity]. Qed.
(** every evaluation raises at most one failure at the top level *)
Theorem C32_one : forall o f n, (length (roses (fst (assertion o f n))) <= 1)%nat.
Proof. exact (fun o f _ => stash_one o f). Qed.
Print Assumptions C32_one.
(** and counts once in the case, the suite and the run, passed or failed *)
Theorem C32_count : forall o f c s r, snd (assertion o f (c, s, r)) = (c + 1, s + 1, r + 1).
Proof. reflexivity. Qed.
Print Assumptions C32_count.
(** OK shows every failure of the matcher *)
Theorem C32_keeps : forall f n x, In x (visited f) -> In x (visited (fst (assertion false f n))).
Proof. exact (fun f _ x => stash_keeps f x). Qed.
Print Assumptions C32_keeps.
Example C32_keeps_example : In (8, 1) (visited (fst (assertion false (Fail 7 0 Null (Fail 8 1 Null Null)) (0, 0, 0)))).
Proof. apply C32_keeps. cbn. auto. Qed.

(** C33: the traversal is the report of the tree: each failure with its number among its siblings and depth, then those below it *)
Theorem C33_preorder : forall f si ci, foreach f si ci = report si ci (roses f).
Proof. exact foreach_report. Qed.
Print Assumptions C33_preorder.
Example C33_preorder_example : foreach (Fail 1 0 (Fail 2 0 Null (Fail 3 1 Null Null)) (Fail 4 0 Null Null)) 0 0 = [(1, 0, 0%nat, 0%nat); (2, 0, 0%nat, 1%nat); (3, 1, 1%nat, 1%nat); (4, 0, 1%nat, 0%nat)].
Proof. reflexivity. Qed.
(** whatever is attached, in any way, in any order, is visited once, and nothing else *)
Theorem C33_once : forall l, Permutation (visited (attach_all l)) (concat (map (fun x => visited (snd x)) l)).
Proof. exact attach_all_perm. Qed.
Print Assumptions C33_once.
Example C33_once_example : visited (attach_all [(false, new_fail 1); (true, new_fail 2); (false, new_fail 3); (true, new_fail 4)]) = [(1, -1); (2, -1); (4, -1); (3, -1)].
Proof. reflexivity. Qed.
(** siblings: those attached earlier come first, and numbering goes on *)
Theorem C33_sibling : forall a b si ci, foreach (append_subling a b) si ci = foreach a si ci ++ foreach b (si + length (roses a)) ci.
Proof. exact foreach_sub. Qed.
Print Assumptions C33_sibling.
(** siblings only: order of attachment *)
Theorem C33_sibling_order : forall l, visited (attach_all (map (pair false) l)) = concat (map visited l).
Proof. exact sublings_order. Qed.
Print Assumptions C33_sibling_order.
Example C33_sibling_order_example : visited (attach_all (map (pair false) [new_fail 5; Null; new_fail 6])) = [(5, -1); (6, -1)].
Proof. reflexivity. Qed.
(** child: below its parent, one deeper, before the parent's next sibling *)
Theorem C33_child : forall l s b f si ci, foreach (append_child (Fail l s Null b) f) si ci = (l, s, si, ci) :: foreach f 0 (S ci) ++ foreach b (S si) ci.
Proof. exact child_below. Qed.
Print Assumptions C33_child.
(** every failure is released exactly once *)
Theorem C33_release : forall f, Permutation (destroy f) (visited f).
Proof. exact destroy_perm. Qed.
Print Assumptions C33_release.
Example C33_release_example : destroy (Fail 1 0 (Fail 2 0 Null Null) (Fail 3 1 Null Null)) = [(2, 0); (3, 1); (1, 0)].
Proof. reflexivity. Qed.
(** a second child becomes a child of the first one, not its sibling; and attached while the first child has a sibling it is
    shown before that sibling, though attached later *)
Theorem C33_second_child_refuted : exists p a b, map depth (foreach (append_child (append_child (new_fail p) (new_fail a)) (new_fail b)) 0 0) <> [0; 1; 1]%nat /\
  visited (append_child (append_child (new_fail p) (append_subling (new_fail a) (new_fail b))) (new_fail 9)) <> [(p, -1); (a, -1); (b, -1); (9, -1)].
Proof. exists 1, 2, 3. split; discriminate. Qed.
Print Assumptions C33_second_child_refuted.
