(** What it means for a heap to hold a list, and what a stable sort is. *)
From Coq Require Import List ZArith NArith Bool Arith Permutation Sorted.
From Verif Require Import ListModel.
Import ListNotations.

(** links of the segment x, l, y: consecutive nodes *)
Fixpoint links (x : nat) (l : list nat) (y : nat) : list (nat * nat) :=
  match l with
  | [] => [(x, y)]
  | z :: l' => (x, z) :: links z l' y
  end.

(** the heap holds, at head h, exactly the distinct nodes l in this order, with consistent links both ways *)
Definition holds (H : heap) (h : nat) (l : list nat) : Prop :=
  NoDup (h :: l) /\ Forall (fun e => nx H (fst e) = snd e /\ pv H (snd e) = fst e) (links h l h).

Definition disjoint (a b : list nat) : Prop := forall x, In x a -> ~ In x b.

(** every list that shares no node with [nodes] is held unchanged *)
Definition others_untouched (H H' : heap) (nodes : list nat) : Prop :=
  forall h l, disjoint (h :: l) nodes -> holds H h l -> holds H' h l.

Definition stable_sort_of {A : Type} (cmp : A -> A -> Z) (l l' : list A) : Prop :=
  Permutation l l' /\ StronglySorted (fun a b => cmp a b <= 0)%Z l' /\
  forall x, filter (fun y => (cmp x y <=? 0)%Z && (cmp y x <=? 0)%Z) l' =
            filter (fun y => (cmp x y <=? 0)%Z && (cmp y x <=? 0)%Z) l.

Definition total_preorder {A : Type} (cmp : A -> A -> Z) : Prop :=
  (forall a b, (cmp a b <= 0 \/ cmp b a <= 0)%Z) /\
  (forall a b c, (cmp a b <= 0 -> cmp b c <= 0 -> cmp a c <= 0)%Z).
