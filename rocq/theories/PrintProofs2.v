From Coq Require Import List ZArith Bool Lia.
From Verif Require Import PrintModel PrintSpec2.
Import ListNotations.
Local Open Scope Z_scope.

Lemma take_here : forall num (l1 : list (node num)) a l2, take_at num (length l1) (l1 ++ a :: l2) = Some (a, l1 ++ l2).
Proof. intros num l1 a l2. induction l1 as [|x l IH]; cbn; [reflexivity|]. rewrite IH. reflexivity. Qed.
Lemma best_ok : forall num (score : Type) (rank : score -> Z) (gt : score -> score -> bool) sim cl (e : node num), (forall x y, gt x y = (rank y <? rank x)) ->
  forall l m straw i,
    (best num score gt sim cl e m straw i l = straw /\ forall x, In x l -> rank (sim cl e x) <= rank m) \/
    (exists l1 a l2, l = l1 ++ a :: l2 /\ best num score gt sim cl e m straw i l = Some (i + length l1)%nat /\ rank m < rank (sim cl e a) /\
       (forall x, In x l1 -> rank (sim cl e x) < rank (sim cl e a)) /\ (forall x, In x l2 -> rank (sim cl e x) <= rank (sim cl e a))).
Proof.
  intros num score rank gt sim cl e G l. induction l as [|b l IH]; intros m straw i; [left; split; [reflexivity|intros x []]|].
  cbn [best]. cbv zeta. rewrite G. destruct (Z.ltb_spec (rank m) (rank (sim cl e b))) as [L|L].
  - right. destruct (IH (sim cl e b) (Some i) (S i)) as [[E A]|[l1 [a [l2 [-> [E [M [B C]]]]]]]].
    + exists [], b, l. cbn [length app]. rewrite E, Nat.add_0_r. repeat split; auto. intros x [].
    + exists (b :: l1), a, l2. rewrite E. cbn [length app]. repeat split; auto; [f_equal; lia|lia|]. intros x [<-|I]; auto.
  - destruct (IH m straw (S i)) as [[E A]|[l1 [a [l2 [-> [E [M [B C]]]]]]]].
    + left. split; [exact E|]. intros x [<-|I]; auto.
    + right. exists (b :: l1), a, l2. rewrite E. cbn [length app]. repeat split; auto; [f_equal; lia|]. intros x [<-|I]; auto. lia.
Qed.
Lemma most_similar : forall num (score : Type) (rank : score -> Z) (gt : score -> score -> bool) floor sim cl (e : node num) l, (forall x y, gt x y = (rank y <? rank x)) ->
  match by_search num score gt floor sim cl e l with
  | Some (a, rest) => first_best (fun x => rank (sim cl e x)) (rank floor) l a rest
  | None => forall x, In x l -> rank (sim cl e x) <= rank floor
  end.
Proof.
  intros num score rank gt floor sim cl e l G. unfold by_search. destruct (best_ok num score rank gt sim cl e G l floor None 0%nat) as [[E A]|[l1 [a [l2 [-> [E [M [B C]]]]]]]]; rewrite E.
  - exact A.
  - cbn [Nat.add]. rewrite take_here. exists l1, l2. auto.
Qed.
