From Coq Require Import List ZArith Bool Permutation Lia.
From Verif Require Import FailModel FailSpec.
Import ListNotations.
Local Open Scope Z_scope.

Lemma report_one_eq : forall l s ks i d, report_one (Rose l s ks) i d = (l, s, i, d) :: report 0 (S d) ks.
Proof.
  intros l s ks i d. cbn [report_one]. f_equal. generalize 0%nat. induction ks as [|k ks IH]; intros n; cbn; [reflexivity|]. rewrite IH. reflexivity.
Qed.
Lemma foreach_report : forall f si ci, foreach f si ci = report si ci (roses f).
Proof. induction f as [|l s c IHc b IHb]; intros si ci; cbn [foreach roses report]; [reflexivity|]. rewrite report_one_eq, IHc, IHb. reflexivity. Qed.
Lemma roses_sub : forall a b, roses (append_subling a b) = roses a ++ roses b.
Proof. induction a as [|l s c _ d IH]; intros b; cbn; [reflexivity|]. rewrite IH. reflexivity. Qed.
Lemma report_app : forall a b i d, report i d (a ++ b) = report i d a ++ report (i + length a) d b.
Proof. induction a as [|r a IH]; intros b i d; cbn [app report length]; [rewrite Nat.add_0_r; reflexivity|]. rewrite IH, <- app_assoc. replace (i + S (length a))%nat with (S i + length a)%nat by lia. reflexivity. Qed.
Lemma foreach_sub : forall a b si ci, foreach (append_subling a b) si ci = foreach a si ci ++ foreach b (si + length (roses a)) ci.
Proof. intros a b si ci. rewrite !foreach_report, roses_sub, report_app. reflexivity. Qed.
Lemma who_indep : forall f si ci si' ci', map who (foreach f si ci) = map who (foreach f si' ci').
Proof. induction f as [|l s c IHc b IHb]; intros si ci si' ci'; cbn; [reflexivity|]. rewrite !map_app, (IHc 0%nat (S ci) 0%nat (S ci')), (IHb (S si) ci (S si') ci'). reflexivity. Qed.
Lemma visited_node : forall l s c b, visited (Fail l s c b) = (l, s) :: visited c ++ visited b.
Proof. intros. unfold visited. cbn. rewrite map_app, (who_indep c 0 1 0 0)%nat, (who_indep b 1 0 0 0)%nat. reflexivity. Qed.
Lemma visited_sub : forall a b, visited (append_subling a b) = visited a ++ visited b.
Proof. induction a as [|l s c _ d IH]; intros b; [reflexivity|]. cbn [append_subling]. rewrite !visited_node, IH. cbn. rewrite <- app_assoc. reflexivity. Qed.
Lemma visited_child : forall a b, Permutation (visited (append_child a b)) (visited a ++ visited b).
Proof.
  induction a as [|l s c IH d _]; intros b; [cbn; reflexivity|]. cbn [append_child]. rewrite !visited_node. cbn. constructor. rewrite IH, <- !app_assoc. apply Permutation_app_head, Permutation_app_comm.
Qed.
Lemma attach_perm : forall l f, Permutation (visited (fold_left attach l f)) (visited f ++ concat (map (fun x => visited (snd x)) l)).
Proof.
  induction l as [|[b g] l IH]; intros f; cbn [fold_left map concat]; [rewrite app_nil_r; reflexivity|]. rewrite IH, app_assoc. apply Permutation_app_tail. unfold attach. cbn [fst snd].
  destruct b; [apply visited_child|rewrite visited_sub; reflexivity].
Qed.
Lemma attach_all_perm : forall l, Permutation (visited (attach_all l)) (concat (map (fun x => visited (snd x)) l)). Proof. intros. apply attach_perm. Qed.
Lemma sublings_order : forall l, visited (attach_all (map (pair false) l)) = concat (map visited l).
Proof.
  intros l. unfold attach_all. assert (G : forall f, visited (fold_left attach (map (pair false) l) f) = visited f ++ concat (map visited l)).
  { induction l as [|a l IH]; intros f; cbn [map fold_left concat]; [rewrite app_nil_r; reflexivity|]. rewrite IH. unfold attach. cbn [fst snd]. rewrite visited_sub, <- app_assoc. reflexivity. }
  apply G.
Qed.
Lemma child_below : forall l s b f si ci, foreach (append_child (Fail l s Null b) f) si ci = (l, s, si, ci) :: foreach f 0 (S ci) ++ foreach b (S si) ci.
Proof. reflexivity. Qed.
Lemma destroy_perm : forall f, Permutation (destroy f) (visited f).
Proof.
  induction f as [|l s c IHc b IHb]; [reflexivity|]. cbn [destroy]. rewrite visited_node, IHc, IHb, app_assoc. rewrite Permutation_app_comm. reflexivity.
Qed.

(** *** OK and KO *)
Lemma stash_null : forall o f, stash o f = Null <-> (if o then f <> Null else f = Null).
Proof. intros [] [|l s c [|l' s' c' b']]; cbn; split; intro H; try discriminate; try reflexivity; congruence. Qed.
Lemma stash_one : forall o f, (length (roses (stash o f)) <= 1)%nat.
Proof. intros [] [|l s c [|l' s' c' b']]; cbn; lia. Qed.
Lemma stash_keeps : forall f x, In x (visited f) -> In x (visited (stash false f)).
Proof.
  intros [|l s c [|l' s' c' b']] x H; auto. unfold stash. cbv iota beta zeta. unfold new_fail. cbn [append_child]. rewrite visited_node. right. apply in_or_app. left. auto.
Qed.
