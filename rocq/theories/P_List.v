(** Final theorems about the intrusive list (properties C05, C06). *)
From Coq Require Import List ZArith Bool Arith Permutation Sorted Lia.
From Verif Require Import ListModel ListSpec ListProofs.
Import ListNotations.

(** a heap used in the examples: head 0 holds 1,2,3; head 10 holds 11; node 5 is unlinked *)
Definition ex_heap : heap :=
  push_back (push_back (push_back (push_back (list_init (list_init (list_init (mkheap (fun x => x) (fun x => x)) 0) 10) 5) 0 1) 0 2) 0 3) 10 11.
Example ex_heap_holds : holds ex_heap 0 [1; 2; 3] /\ holds ex_heap 10 [11].
Proof.
  repeat split; repeat constructor; simpl; intuition discriminate.
Qed.

(** C05 *)
Theorem C05_push : forall H h l e, holds H h l -> ~ In e (h :: l) ->
  holds (push H h e) h (e :: l) /\ others_untouched H (push H h e) (e :: h :: l).
Proof. exact push_final. Qed.
Print Assumptions C05_push.
Example C05_push_ex : traverse 9 (push ex_heap 0 5) 0 = Some [5; 1; 2; 3].
Proof. reflexivity. Qed.

Theorem C05_push_back : forall H h l e, holds H h l -> ~ In e (h :: l) ->
  holds (push_back H h e) h (l ++ [e]) /\ others_untouched H (push_back H h e) (e :: h :: l).
Proof. exact push_back_final. Qed.
Print Assumptions C05_push_back.
Example C05_push_back_ex : traverse 9 (push_back ex_heap 0 5) 0 = Some [1; 2; 3; 5].
Proof. reflexivity. Qed.

Theorem C05_add_before : forall H h l1 x l2 e, holds H h (l1 ++ x :: l2) -> ~ In e (h :: l1 ++ x :: l2) ->
  holds (add_before H x e) h (l1 ++ e :: x :: l2) /\
  others_untouched H (add_before H x e) (e :: h :: l1 ++ x :: l2).
Proof. exact add_before_final. Qed.
Print Assumptions C05_add_before.
Example C05_add_before_ex : traverse_back 9 (add_before ex_heap 2 5) 0 = Some [3; 2; 5; 1].
Proof. reflexivity. Qed.

Theorem C05_add_after : forall H h l1 x l2 e, holds H h (l1 ++ x :: l2) -> ~ In e (h :: l1 ++ x :: l2) ->
  holds (add_after H x e) h (l1 ++ x :: e :: l2) /\
  others_untouched H (add_after H x e) (e :: h :: l1 ++ x :: l2).
Proof. exact add_after_final. Qed.
Print Assumptions C05_add_after.
Example C05_add_after_ex : traverse 9 (add_after ex_heap 2 5) 0 = Some [1; 2; 5; 3].
Proof. reflexivity. Qed.

Theorem C05_out : forall H h l1 e l2, holds H h (l1 ++ e :: l2) ->
  holds (out H e) h (l1 ++ l2) /\ holds (out H e) e [] /\ others_untouched H (out H e) (h :: l1 ++ e :: l2).
Proof. exact out_final. Qed.
Print Assumptions C05_out.
Example C05_out_ex : traverse 9 (out ex_heap 2) 0 = Some [1; 3] /\ traverse 9 (out ex_heap 11) 10 = Some [].
Proof. split; reflexivity. Qed.

Theorem C05_pop : forall H h x l, holds H h (x :: l) ->
  snd (pop H h) = x /\ holds (fst (pop H h)) h l /\ others_untouched H (fst (pop H h)) (h :: x :: l).
Proof. exact pop_final. Qed.
Print Assumptions C05_pop.
Example C05_pop_ex : traverse 9 (fst (pop ex_heap 0)) 0 = Some [2; 3] /\ snd (pop ex_heap 0) = 1.
Proof. split; reflexivity. Qed.

Theorem C05_pop_back : forall H h x l, holds H h (l ++ [x]) ->
  snd (pop_back H h) = x /\ holds (fst (pop_back H h)) h l /\
  others_untouched H (fst (pop_back H h)) (h :: l ++ [x]).
Proof. exact pop_back_final. Qed.
Print Assumptions C05_pop_back.
Example C05_pop_back_ex : traverse 9 (fst (pop_back ex_heap 0)) 0 = Some [1; 2] /\ snd (pop_back ex_heap 0) = 3.
Proof. split; reflexivity. Qed.

(** traversals see exactly the sequence held *)
Theorem C05_traverse : forall H h l fuel, holds H h l -> List.length l < fuel ->
  traverse fuel H h = Some l /\ traverse_back fuel H h = Some (rev l) /\ count fuel H h = Some (List.length l).
Proof. exact traverse_correct. Qed.
Print Assumptions C05_traverse.
Example C05_traverse_ex : traverse 4 ex_heap 0 = Some [1; 2; 3] /\ count 4 ex_heap 0 = Some 3.
Proof. split; reflexivity. Qed.

Theorem C05_empty : forall H h l, holds H h l -> (empty H h = true <-> l = []).
Proof. exact empty_correct. Qed.
Print Assumptions C05_empty.
Example C05_empty_ex : empty ex_heap 0 = false /\ empty ex_heap 5 = true.
Proof. split; reflexivity. Qed.

(** the ends: the first and the last element, none of an empty list *)
Theorem C05_ends : forall H h l, holds H h l ->
  top_entry H h = hd_error l /\ bottom_entry H h = hd_error (rev l) /\
  (forall e, l <> [] -> (is_first H h e = true <-> hd_error l = Some e)) /\ (forall e, l <> [] -> (is_last H h e = true <-> hd_error (rev l) = Some e)).
Proof. exact ends_correct. Qed.
Print Assumptions C05_ends.
Example C05_ends_ex : top_entry ex_heap 0 = Some 1 /\ bottom_entry ex_heap 0 = Some 3 /\ is_last ex_heap 0 3 = true /\ is_first ex_heap 0 3 = false /\ top_entry ex_heap 5 = None.
Proof. repeat split; reflexivity. Qed.

(** popping: the first element if there is one, nothing changes otherwise *)
Theorem C05_pop_entry : forall H h l, holds H h l ->
  snd (pop_entry H h) = hd_error l /\ holds (fst (pop_entry H h)) h (tl l) /\ (l = [] -> fst (pop_entry H h) = H) /\ others_untouched H (fst (pop_entry H h)) (h :: l).
Proof. exact pop_entry_correct. Qed.
Print Assumptions C05_pop_entry.
Example C05_pop_entry_ex : snd (pop_entry ex_heap 0) = Some 1 /\ traverse 9 (fst (pop_entry ex_heap 0)) 0 = Some [2; 3] /\ snd (pop_entry ex_heap 5) = None.
Proof. repeat split; reflexivity. Qed.

(** iterating while removing the current element visits every element once and removes exactly the chosen ones *)
Theorem C05_remove_while_iterating : forall drop l fuel H h, holds H h l -> List.length l < fuel ->
  exists H', for_each_entry fuel drop H h = Some (H', l) /\
             holds H' h (filter (fun x => negb (drop x)) l) /\
             (forall x, In x l -> drop x = true -> holds H' x []) /\ others_untouched H H' (h :: l).
Proof. exact for_each_final. Qed.
Print Assumptions C05_remove_while_iterating.
Example C05_remove_while_iterating_ex :
  option_map (fun r => (traverse 9 (fst r) 0, snd r)) (for_each_entry 9 Nat.odd ex_heap 0) = Some (Some [2], [1; 2; 3]).
Proof. reflexivity. Qed.

(** C06 *)
Theorem C06_sort_is_stable_sort : forall cmp, total_preorder cmp ->
  forall l fuel H h s, holds H h l -> ~ In s (h :: l) -> List.length l < fuel ->
  exists H' l', sort cmp fuel H h s = Some H' /\ holds H' h l' /\ stable_sort_of cmp l l' /\
                others_untouched H H' (s :: h :: l).
Proof. exact sort_correct. Qed.
Print Assumptions C06_sort_is_stable_sort.
Definition ex_cmp (a b : nat) : Z := (Z.of_nat (Nat.modulo b 2) - Z.of_nat (Nat.modulo a 2))%Z.
Example C06_sort_is_stable_sort_ex : total_preorder ex_cmp /\
  option_map (fun H => traverse 9 H 0) (sort ex_cmp 9 ex_heap 0 7) = Some (Some [1; 3; 2]).
Proof.
  split; [|reflexivity]. unfold total_preorder, ex_cmp. split; intros; lia.
Qed.

(** even a comparator that is not an order (shuffling compares fresh random numbers) only permutes *)
Theorem C06_sort_permutes_for_any_comparator : forall cmp l fuel H h s,
  holds H h l -> ~ In s (h :: l) -> List.length l < fuel ->
  exists H' l', sort cmp fuel H h s = Some H' /\ holds H' h l' /\ Permutation l l'.
Proof. exact sort_perm. Qed.
Print Assumptions C06_sort_permutes_for_any_comparator.
Example C06_sort_permutes_for_any_comparator_ex :
  option_map (fun H => traverse 9 H 0) (sort (fun _ _ => 1%Z) 9 ex_heap 0 7) = Some (Some [3; 2; 1]).
Proof. reflexivity. Qed.
