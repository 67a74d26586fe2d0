From Coq Require Import List Arith Bool Lia.
From Verif Require Import MockModel MockSpec MockSpec2.
Import ListNotations.

Definition stands {V} (l : list (V -> bool)) (f : nat -> option (V -> bool)) : Prop :=
  length l = 20 /\ forall j m, nth_error l j = Some m -> forall a, m a = match f j with Some m' => m' a | None => true end.
Lemma full_stands : forall {V} (ms : list (V -> bool)), length ms <= 20 -> stands (full ms) (nth_error ms).
Proof.
  intros V ms L. unfold stands, full. split; [rewrite app_length, repeat_length; lia|]. intros j m H a.
  destruct (Nat.lt_ge_cases j (length ms)) as [J|J].
  - rewrite nth_error_app1 in H by exact J. rewrite H. reflexivity.
  - rewrite nth_error_app2 in H by exact J. apply nth_error_In, repeat_spec in H. subst m. apply nth_error_None in J. rewrite J. reflexivity.
Qed.
Lemma th_stands : forall {V} (l : list (V -> bool)) f i m, stands l f ->
  stands (firstn i l ++ match skipn i l with [] => [] | _ :: r => m :: r end) (fun j => if Nat.eqb i j then Some m else f j).
Proof.
  intros V l f i m [L H]. split.
  - rewrite <- L. rewrite <- (firstn_skipn i l) at 3. rewrite !app_length. destruct (skipn i l); reflexivity.
  - intros j m' E a. destruct (Nat.lt_ge_cases j i) as [J|J].
    + replace (i =? j) with false by (symmetry; apply Nat.eqb_neq; lia). apply H. rewrite <- (firstn_skipn i l).
      destruct (Nat.lt_ge_cases j (length (firstn i l))) as [K|K].
      * rewrite nth_error_app1 in E |- * by exact K. exact E.
      * rewrite firstn_length in K. assert (Q : length l <= i) by lia. rewrite (skipn_all2 l Q), app_nil_r in E |- *. exact E.
    + assert (K : length (firstn i l) <= j) by (rewrite firstn_length; lia). rewrite nth_error_app2 in E by exact K.
      destruct (skipn i l) as [|x r] eqn:S; [destruct (j - length (firstn i l)); discriminate|].
      assert (Q : i < length l) by (assert (Z := skipn_length i l); rewrite S in Z; cbn in Z; lia).
      rewrite firstn_length, Nat.min_l in E by lia. destruct (Nat.eqb_spec i j) as [->|N].
      * rewrite Nat.sub_diag in E. injection E as <-. reflexivity.
      * apply H. rewrite <- (firstn_skipn i l), nth_error_app2, S, firstn_length, Nat.min_l by (try rewrite firstn_length; lia). destruct (j - i) eqn:D; [lia|]. exact E.
Qed.
Lemma group_stands : forall {V R} (g : group V R), within_twenty g -> stands (fst (group_value g)) (in_force g).
Proof.
  intros V R [b ms mods] [L W]. unfold group_value, in_force. cbn [g_mods g_matchers] in *.
  assert (K : forall (x : list (V -> bool) * option R) (f : nat -> option (V -> bool)), stands (fst x) f -> stands (fst (fold_left modify mods x)) (fun j => fold_left (concerns j) mods (f j))).
  { clear L b ms. induction mods as [|m mods IH]; intros x f H; [exact H|]. cbn [fold_left].
    apply (IH (fun ms I => W ms (or_intror I)) (modify x m) (fun j => concerns j (f j) m)).
    destruct m as [ms|i m|r]; cbn [modify concerns fst].
    - apply full_stands, W. left. reflexivity.
    - apply th_stands, H.
    - exact H. }
  apply K. apply full_stands, L.
Qed.
From Verif Require Import MockProofs3.
Lemma arguments_judged : forall V R (gs : list (group V R)) (tail : option R) n g, Forall within_twenty gs -> nth_error gs n = Some g ->
  exists ms, nth_error (matchers (declares (flat_map group_decls gs ++ match tail with Some r => [Assign r] | None => [] end))) n = Some ms /\ length ms = 20 /\
    forall j m, nth_error ms j = Some m -> forall a, m a = match in_force g j with Some m' => m' a | None => true end.
Proof.
  intros V R gs tail n g F E. assert (N : gs <> []) by (intros ->; destruct n; discriminate).
  destruct (grouped V R gs tail N) as [M _]. rewrite M. exists (fst (group_value g)). split; [apply (map_nth_error (fun g => fst (group_value g)) n gs E)|].
  apply group_stands. exact (proj1 (Forall_forall _ _) F g (nth_error_In _ _ E)).
Qed.
