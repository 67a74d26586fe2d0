(** C33: what the failures of matchers made of matchers tell. *)
From Coq Require Import List ZArith Bool Lia.
From Verif Require Import FailModel FailSpec MatcherModel MatcherSpec2 MatcherSpec3 MatcherProofs4 MatcherProofs5.
Import ListNotations.
Local Open Scope Z_scope.

(** a failing AllOf tells all failures of all its parts, in their order, each part's under its place *)
Theorem C33_allof : forall c v l, matches (MAllOf l) c v <> Null ->
  visited (matches (MAllOf l) c v) = (0, -1) :: by_place 0 (map (fun m => visited (matches m (upd_neg c false) v)) l).
Proof. exact allof_told. Qed.
Print Assumptions C33_allof.
(** a failing NoneOf tells the places of the parts that match *)
Theorem C33_noneof : forall c v l, matches (MNoneOf l) c v <> Null ->
  visited (matches (MNoneOf l) c v) = (0, -1) :: by_place 0 (map (fun m => match visited (matches m (upd_neg c false) v) with [] => [(4, -1)] | _ => [] end) l).
Proof. exact noneof_told. Qed.
Print Assumptions C33_noneof.
(** a failing ListOf tells the failures of each element under its place among the matchers, and which elements are missing *)
Theorem C33_listof : forall c v r l, matches (MListOf r l) c v <> Null ->
  visited (matches (MListOf r l) c v) = (0, -1) :: by_place 0 (map (fun p => place_told c v (Z.max (r_start r) (c_rs c)) (Z.of_nat (fst p)) (snd p)) (combine (seq 0 (length l)) l)).
Proof. exact listof_told. Qed.
Print Assumptions C33_listof.
(** a failing AnyOf tells the failures of the parts up to the first that matches, each part's under its place *)
Theorem C33_anyof : forall c v l, matches (MAnyOf l) c v <> Null ->
  visited (matches (MAnyOf l) c v) = (0, -1) :: by_place 0 (before_silent (map (fun m => visited (matches m (upd_neg c false) v)) l)).
Proof. exact anyof_told. Qed.
Print Assumptions C33_anyof.
(** a failing conjunction tells the failures of its left part, then those of its right part *)
Theorem C33_and : forall c v m1 m2, matches (MAnd m1 m2) c v <> Null ->
  visited (matches (MAnd m1 m2) c v) = (0, -1) :: visited (matches m1 (upd_neg c false) v) ++ visited (matches m2 (upd_neg c false) v).
Proof. exact and_told. Qed.
Print Assumptions C33_and.
(** so does a failing disjunction *)
Theorem C33_or : forall c v m1 m2, matches (MOr m1 m2) c v <> Null ->
  visited (matches (MOr m1 m2) c v) = (0, -1) :: visited (matches m1 (upd_neg c false) v) ++ visited (matches m2 (upd_neg c false) v).
Proof. exact or_told. Qed.
Print Assumptions C33_or.
(** a failing pair tells the failures of the key, then those of the value *)
Theorem C33_pair : forall c a b mk mv, matches (MPair mk mv) c (VPair a b) <> Null ->
  visited (matches (MPair mk mv) c (VPair a b)) = (0, -1) :: visited (matches mk (inner c) a) ++ visited (matches mv (inner c) b).
Proof. exact pair_told. Qed.
Print Assumptions C33_pair.
(** a failing Every tells the failures of the elements in its range, in their order *)
Theorem C33_every : forall c v r m, matches (MEvery r m) c v <> Null ->
  visited (matches (MEvery r m) c v) = (0, -1) :: flat_map (fun a => visited (matches m (inner c) a)) (chosen c r (elems v)).
Proof. exact every_told. Qed.
Print Assumptions C33_every.
Definition ex_eq (n : Z) : matcher := MBase (fun _ _ v => match v with VNum x => x =? n | _ => false end).
Example C33_told_case : visited (matches (MAllOf [ex_eq 3; ex_eq 4; ex_eq 5]) ctx0 (VNum 3)) = [(0, -1); (1, 1); (1, 2)] /\
  visited (matches (MNoneOf [ex_eq 4; ex_eq 3; ex_eq 3]) ctx0 (VNum 3)) = [(0, -1); (4, 1); (4, 2)] /\
  visited (matches (MListOf (mkrange 0 range_max) [ex_eq 1; ex_eq 2; ex_eq 3]) ctx0 (VSeq [VNum 1; VNum 5])) = [(0, -1); (1, 1); (5, 2)].
Proof. repeat split; vm_compute; reflexivity. Qed.
Example C33_told_more : visited (matches (MAnyOf [ex_eq 4; ex_eq 5]) ctx0 (VNum 3)) = [(0, -1); (1, 0); (1, 1)] /\
  visited (matches (MNot (MAnyOf [ex_eq 4; ex_eq 3; ex_eq 5])) ctx0 (VNum 3)) = [(0, -1); (1, 0)] /\
  visited (matches (MAnd (ex_eq 3) (ex_eq 4)) ctx0 (VNum 3)) = [(0, -1); (1, -1)] /\
  visited (matches (MOr (ex_eq 5) (MNot (ex_eq 3))) ctx0 (VNum 3)) = [(0, -1); (1, -1); (1, -1)] /\
  visited (matches (MPair (ex_eq 5) (MAnd (ex_eq 1) (ex_eq 1))) ctx0 (VPair (VNum 1) (VNum 2))) = [(0, -1); (1, -1); (0, -1); (1, -1); (1, -1)] /\
  visited (matches (MEvery (mkrange 1 3) (ex_eq 1)) ctx0 (VSeq [VNum 5; VNum 1; VNum 6; VNum 7])) = [(0, -1); (1, -1)].
Proof. repeat split; vm_compute; reflexivity. Qed.
