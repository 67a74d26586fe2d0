From Coq Require Import List ZArith Bool Lia.
From Verif Require Import FailModel FailSpec FailProofs MatcherModel MatcherSpec2.
Import ListNotations.
Local Open Scope Z_scope.

Lemma visited_numbered : forall f i, visited (set_seqno f i) = with_number i (visited f).
Proof. intros [|l s c b] i; [reflexivity|]. cbn [set_seqno]. rewrite !visited_node. reflexivity. Qed.
Lemma conclude_told : forall c ok fails, fit c ok = false -> visited (conclude c ok fails) = (0, -1) :: visited fails.
Proof. intros c ok fails F. unfold conclude. rewrite F. change (append_child (new_fail 0) fails) with (Fail 0 (-1) fails Null). rewrite visited_node. unfold visited at 2. cbn. rewrite app_nil_r. reflexivity. Qed.
Lemma conclude_null : forall c ok fails, conclude c ok fails <> Null -> fit c ok = false.
Proof. intros c ok fails. unfold conclude. destruct (fit c ok); congruence. Qed.
Lemma allof_told : forall c v l, matches (MAllOf l) c v <> Null ->
  visited (matches (MAllOf l) c v) = (0, -1) :: by_place 0 (map (fun m => visited (matches m (upd_neg c false) v)) l).
Proof.
  intros c v l H. cbn [matches] in H |- *. rewrite conclude_told by (eapply conclude_null; exact H). f_equal. clear H.
  assert (K : forall l i fails, visited ((fix go (i : Z) (fails : fail) (l : list matcher) : fail := match l with [] => fails | m1 :: r => go (i + 1) (append_subling fails (set_seqno (matches m1 (upd_neg c false) v) i)) r end) i fails l)
    = visited fails ++ by_place i (map (fun m => visited (matches m (upd_neg c false) v)) l)).
  { clear l. induction l as [|m l IH]; intros i fails; [cbn; rewrite app_nil_r; reflexivity|]. rewrite IH, visited_sub, visited_numbered, <- app_assoc. reflexivity. }
  rewrite K. reflexivity.
Qed.
Lemma noneof_told : forall c v l, matches (MNoneOf l) c v <> Null ->
  visited (matches (MNoneOf l) c v) = (0, -1) :: by_place 0 (map (fun m => match visited (matches m (upd_neg c false) v) with [] => [(4, -1)] | _ => [] end) l).
Proof.
  intros c v l H. cbn [matches] in H |- *. rewrite conclude_told by (eapply conclude_null; exact H). f_equal. clear H.
  assert (K : forall l i fails, visited ((fix go (i : Z) (fails : fail) (l : list matcher) : fail := match l with [] => fails | m1 :: r => let f := matches m1 (upd_neg c false) v in go (i + 1) (if isnull f then append_subling fails (set_seqno (new_fail 4) i) else fails) r end) i fails l)
    = visited fails ++ by_place i (map (fun m => match visited (matches m (upd_neg c false) v) with [] => [(4, -1)] | _ => [] end) l)).
  { clear l. induction l as [|m l IH]; intros i fails; [cbn; rewrite app_nil_r; reflexivity|]. rewrite IH. cbn [map by_place]. destruct (matches m (upd_neg c false) v) as [|x y z w].
    - cbn [isnull]. rewrite visited_sub, visited_numbered, <- app_assoc. reflexivity.
    - cbn [isnull]. rewrite visited_node. reflexivity. }
  rewrite K. reflexivity.
Qed.
Lemma listof_told : forall c v r l, matches (MListOf r l) c v <> Null ->
  visited (matches (MListOf r l) c v) = (0, -1) :: by_place 0 (map (fun p => place_told c v (Z.max (r_start r) (c_rs c)) (Z.of_nat (fst p)) (snd p)) (combine (seq 0 (length l)) l)).
Proof.
  intros c v r l H. cbn [matches] in H |- *. rewrite conclude_told by (eapply conclude_null; exact H). f_equal. clear H.
  replace (if r_start r <? c_rs c then c_rs c else r_start r) with (Z.max (r_start r) (c_rs c)) by (destruct (Z.ltb_spec (r_start r) (c_rs c)); lia). set (start := Z.max (r_start r) (c_rs c)). clearbody start.
  match goal with |- visited (?g 0 Null l) = _ => set (go := g) end.
  assert (K : forall l n fails, visited (go (Z.of_nat n) fails l) = visited fails ++ by_place (Z.of_nat n) (map (fun p => place_told c v start (Z.of_nat (fst p)) (snd p)) (combine (seq n (length l)) l))).
  { clear l. induction l as [|m l IH]; intros n fails; [cbn; rewrite app_nil_r; reflexivity|].
    change (go (Z.of_nat n) fails (m :: l)) with (go (Z.of_nat n + 1) (append_subling fails (set_seqno match (if 0 <=? Z.of_nat n + start then nth_error (elems v) (Z.to_nat (Z.of_nat n + start)) else None) with Some a => matches m (inner c) a | None => new_fail 5 end (Z.of_nat n))) l).
    replace (Z.of_nat n + 1) with (Z.of_nat (S n)) by lia. rewrite IH, visited_sub, visited_numbered, <- app_assoc. f_equal.
    cbn [length seq combine map by_place fst snd]. replace (Z.of_nat n + 1) with (Z.of_nat (S n)) by lia. f_equal. f_equal. unfold place_told.
    destruct (if 0 <=? Z.of_nat n + start then nth_error (elems v) (Z.to_nat (Z.of_nat n + start)) else None); reflexivity. }
  exact (K l 0%nat Null).
Qed.
