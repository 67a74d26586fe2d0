From Coq Require Import List ZArith Bool Lia.
From Verif Require Import FailModel FailSpec FailProofs MatcherModel MatcherSpec2 MatcherSpec3 MatcherProofs4.
Import ListNotations.
Local Open Scope Z_scope.

Lemma anyof_told : forall c v l, matches (MAnyOf l) c v <> Null ->
  visited (matches (MAnyOf l) c v) = (0, -1) :: by_place 0 (before_silent (map (fun m => visited (matches m (upd_neg c false) v)) l)).
Proof.
  intros c v l H. cbn [matches] in H |- *.
  match goal with |- context [?g 0 Null l] => set (go := g) in * end.
  assert (K : forall l i fails, visited (snd (go i fails l)) = visited fails ++ by_place i (before_silent (map (fun m => visited (matches m (upd_neg c false) v)) l))).
  { clear H l. induction l as [|m l IH]; intros i fails; [cbn; rewrite app_nil_r; reflexivity|].
    change (go i fails (m :: l)) with (if isnull (matches m (upd_neg c false) v) then (true, fails) else go (i + 1) (append_subling fails (set_seqno (matches m (upd_neg c false) v) i)) l).
    cbn [map]. destruct (matches m (upd_neg c false) v) as [|x y z w] eqn:E.
    - cbn. rewrite app_nil_r. reflexivity.
    - cbn [isnull]. rewrite IH, visited_sub, visited_numbered, <- app_assoc. rewrite visited_node. reflexivity. }
  specialize (K l 0 Null). destruct (go 0 Null l) as [found fails]. cbn [snd] in K. rewrite conclude_told by (eapply conclude_null; exact H). rewrite K. reflexivity.
Qed.
Lemma and_told : forall c v m1 m2, matches (MAnd m1 m2) c v <> Null ->
  visited (matches (MAnd m1 m2) c v) = (0, -1) :: visited (matches m1 (upd_neg c false) v) ++ visited (matches m2 (upd_neg c false) v).
Proof. intros c v m1 m2 H. cbn [matches] in H |- *. rewrite conclude_told by (eapply conclude_null; exact H). rewrite !visited_sub. reflexivity. Qed.
Lemma or_told : forall c v m1 m2, matches (MOr m1 m2) c v <> Null ->
  visited (matches (MOr m1 m2) c v) = (0, -1) :: visited (matches m1 (upd_neg c false) v) ++ visited (matches m2 (upd_neg c false) v).
Proof. intros c v m1 m2 H. cbn [matches] in H |- *. rewrite conclude_told by (eapply conclude_null; exact H). rewrite !visited_sub. reflexivity. Qed.
Lemma pair_told : forall c a b mk mv, matches (MPair mk mv) c (VPair a b) <> Null ->
  visited (matches (MPair mk mv) c (VPair a b)) = (0, -1) :: visited (matches mk (inner c) a) ++ visited (matches mv (inner c) b).
Proof. intros c a b mk mv H. cbn [matches] in H |- *. rewrite conclude_told by (eapply conclude_null; exact H). rewrite !visited_sub. reflexivity. Qed.
Lemma every_told : forall c v r m, matches (MEvery r m) c v <> Null ->
  visited (matches (MEvery r m) c v) = (0, -1) :: flat_map (fun a => visited (matches m (inner c) a)) (chosen c r (elems v)).
Proof.
  intros c v r m H. cbn [matches] in H |- *. rewrite conclude_told by (eapply conclude_null; exact H). f_equal. clear H. unfold chosen.
  generalize (elems v) as l. intros l.
  assert (K : forall l n fails, visited (every_loop (range_in c r) (fun a => matches m (inner c) a) (Z.of_nat n) fails l)
    = visited fails ++ flat_map (fun a => visited (matches m (inner c) a)) (map snd (filter (fun p => let i := Z.of_nat (fst p) in (c_rs c <=? i) && (i <? c_re c) && ((r_start r <=? i) && (i <? r_end r))) (combine (seq n (length l)) l)))).
  { clear l. induction l as [|a l IH]; intros n fails; [cbn; rewrite app_nil_r; reflexivity|].
    cbn [every_loop length seq combine filter fst]. replace (Z.of_nat n + 1) with (Z.of_nat (S n)) by lia. rewrite IH.
    change (range_in c r (Z.of_nat n)) with ((c_rs c <=? Z.of_nat n) && (Z.of_nat n <? c_re c) && ((r_start r <=? Z.of_nat n) && (Z.of_nat n <? r_end r))).
    cbv zeta. destruct ((c_rs c <=? Z.of_nat n) && (Z.of_nat n <? c_re c) && ((r_start r <=? Z.of_nat n) && (Z.of_nat n <? r_end r))).
    - cbn [map flat_map snd]. rewrite visited_sub, <- app_assoc. reflexivity.
    - reflexivity. }
  exact (K l 0%nat Null).
Qed.
