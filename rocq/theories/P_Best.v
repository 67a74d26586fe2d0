(** C40: which elements of two objects are put side by side if no key is the same. *)
From Coq Require Import List ZArith Bool.
From Verif Require Import Base JsonModel PrintModel PrintSpec2 PrintProofs2.
Import ListNotations.
Local Open Scope Z_scope.

(** an element is put beside the most similar one that is left, the first of several, if it is similar enough; the others are left in their order *)
Theorem C40_similar : forall num (score : Type) (rank : score -> Z) (gt : score -> score -> bool) floor sim cl (e : node num) l, (forall x y, gt x y = (rank y <? rank x)) ->
  match by_search num score gt floor sim cl e l with
  | Some (a, rest) => first_best (fun x => rank (sim cl e x)) (rank floor) l a rest
  | None => forall x, In x l -> rank (sim cl e x) <= rank floor
  end.
Proof. exact most_similar. Qed.
Print Assumptions C40_similar.
Definition ex_node (i : nat) (n : Z) : node Z := (i, (str "k", Num n)).
Definition ex_sim (_ : bool) (e a : node Z) : Z := match snd (snd e), snd (snd a) with Num x, Num y => 10 - Z.abs (x - y) | _, _ => 0 end.
Example C40_similar_case : let gt x y := y <? x in (forall x y, gt x y = (y <? x)) /\
  by_search Z Z gt 2 ex_sim false (ex_node 0 5) [ex_node 0 9; ex_node 1 6; ex_node 2 4; ex_node 3 90] = Some (ex_node 1 6, [ex_node 0 9; ex_node 2 4; ex_node 3 90]) /\
  by_search Z Z gt 2 ex_sim false (ex_node 0 5) [ex_node 0 90; ex_node 1 (-7)] = None.
Proof. cbv zeta. repeat split; vm_compute; reflexivity. Qed.
