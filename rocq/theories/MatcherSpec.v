(** Meaning of matcher expressions. *)
From Coq Require Import List ZArith NArith Bool Sorted Permutation.
From Verif Require Import FailModel MatcherModel.
Import ListNotations.
Local Open Scope Z_scope.

(** what a container is made of: a map of pairs *)
Definition members (v : val) : list val := match v with VSeq l => l | VMap l => map (fun kv => VPair (fst kv) (snd kv)) l | _ => [] end.
(** what Has(x) tests of a member: in a map the key, unless x is a Pair *)
Definition subject (v : val) (m : matcher) (a : val) : val :=
  match v, m, a with
  | VMap _, MPoly _ (MPair _ _), _ => a
  | VMap _, _, VPair k _ => k
  | _, _, _ => a
  end.
(** positions from here on are never looked at *)
Definition longest : Z := 5413722.
(** what surrounds a matcher: caseless, spaceless, selected positions [from, upto), number of hits asked of Has *)
Record env := mkenv { e_ci : bool; e_sq : bool; e_from : Z; e_upto : Z; e_times : Z }.
(** nothing special asked for *)
Definition env0 : env := mkenv false false 0 longest 1.
(** inside an element of a container only the string options remain *)
Definition within (e : env) : env := mkenv (e_ci e) (e_sq e) 0 longest 1.
(** options written on a matcher: the nearest range counts, repetitions multiply *)
Definition scope (f : flags) (e : env) : env :=
  mkenv (f_ci f || e_ci e) (f_sq f || e_sq e)
        (if (f_rs f =? -1) || (f_re f =? -1) then e_from e else f_rs f)
        (if (f_rs f =? -1) || (f_re f =? -1) then e_upto e else f_re f)
        (e_times e * f_times f).
(** a position selected by the options and by the template range *)
Definition selected (e : env) (r : range) (i : nat) : Prop :=
  e_from e <= Z.of_nat i < e_upto e /\ r_start r <= Z.of_nat i < r_end r.

Fixpoint sem (m : matcher) (e : env) (v : val) {struct m} : Prop :=
  match m with
  | MPoly f m1 => if f_neg f then ~ sem m1 (scope f e) v else sem m1 (scope f e) v
  | MBase p => p (e_ci e) (e_sq e) v = true
  | MNot m1 => ~ sem m1 e v
  | MCond b mt mf => if b then sem mt e v else sem mf e v
  | MAnd ml mr => sem ml e v /\ sem mr e v
  | MOr ml mr => sem ml e v \/ sem mr e v
  | MAllOf l => (fix all l := match l with [] => True | m1 :: r => sem m1 e v /\ all r end) l
  | MAnyOf l => (fix any l := match l with [] => False | m1 :: r => sem m1 e v \/ any r end) l
  | MNoneOf l => (fix none l := match l with [] => True | m1 :: r => ~ sem m1 e v /\ none r end) l
  | MCaseLess m1 => sem m1 (mkenv true (e_sq e) (e_from e) (e_upto e) (e_times e)) v
  | MSpaceLess m1 => sem m1 (mkenv (e_ci e) true (e_from e) (e_upto e) (e_times e)) v
  | MPair mk mv => exists a b, v = VPair a b /\ sem mk (within e) a /\ sem mv (within e) b
  | MEvery r m1 => forall i a, nth_error (members v) i = Some a -> selected e r i -> sem m1 (within e) a
  | MHas r m1 => exists ps, NoDup ps /\ e_times e <= Z.of_nat (length ps) /\
                   forall i, In i ps -> selected e r i /\ exists a, nth_error (members v) i = Some a /\ sem m1 (within e) (subject v m1 a)
  | MListOf r l => (fix items k l := match l with
                     | [] => True
                     | m1 :: l1 => (exists i a, Z.of_nat i = k + Z.max (e_from e) (r_start r) /\ nth_error (members v) i = Some a /\ sem m1 (within e) a) /\ items (k + 1) l1
                     end) 0 l
  | MCountOf m1 => sem m1 (within e) (VNum (Z.of_nat (length (members v))))
  | MMaxMin is_max r m1 => exists x, sem m1 (within e) (VNum x) /\
      (exists i, nth_error (members v) i = Some (VNum x) /\ selected e r i) /\
      (forall i y, nth_error (members v) i = Some (VNum y) -> selected e r i -> if is_max then y <= x else x <= y)
  end.

(** what the compiler guarantees: Pair meets pairs, MaxOf/MinOf meet numbers (here) *)
Fixpoint typed (m : matcher) (v : val) {struct m} : Prop :=
  match m with
  | MPoly _ m1 | MNot m1 | MCaseLess m1 | MSpaceLess m1 => typed m1 v
  | MBase _ => True
  | MCond _ a b | MAnd a b | MOr a b => typed a v /\ typed b v
  | MAllOf l | MAnyOf l | MNoneOf l => (fix all l := match l with [] => True | m1 :: r => typed m1 v /\ all r end) l
  | MPair mk mv => exists a b, v = VPair a b /\ typed mk a /\ typed mv b
  | MEvery _ m1 => forall a, In a (members v) -> typed m1 a
  | MHas _ m1 => forall a, In a (members v) -> typed m1 (subject v m1 a)
  | MListOf _ l => (fix all l := match l with [] => True | m1 :: r => (forall a, In a (members v) -> typed m1 a) /\ all r end) l
  | MCountOf m1 => typed m1 (VNum (Z.of_nat (length (members v))))
  | MMaxMin _ _ m1 => forall a, In a (members v) -> (exists x, a = VNum x) /\ typed m1 a
  end.
(** no Has in it *)
Fixpoint nohas (m : matcher) : bool :=
  match m with
  | MPoly _ m1 | MNot m1 | MCaseLess m1 | MSpaceLess m1 | MEvery _ m1 | MCountOf m1 | MMaxMin _ _ m1 => nohas m1
  | MBase _ => true
  | MCond _ a b | MAnd a b | MOr a b | MPair a b => nohas a && nohas b
  | MAllOf l | MAnyOf l | MNoneOf l | MListOf _ l => (fix all l := match l with [] => true | m1 :: r => nohas m1 && all r end) l
  | MHas _ _ => false
  end.
(** no repetition count [t] is in force outside a container matcher that has a Has inside *)
Fixpoint times_ok (m : matcher) (t : Z) {struct m} : Prop :=
  match m with
  | MPoly f m1 => times_ok m1 (t * f_times f)
  | MBase _ => True
  | MNot m1 | MCaseLess m1 | MSpaceLess m1 => times_ok m1 t
  | MCond _ a b | MAnd a b | MOr a b => times_ok a t /\ times_ok b t
  | MAllOf l | MAnyOf l | MNoneOf l => (fix all l := match l with [] => True | m1 :: r => times_ok m1 t /\ all r end) l
  | MPair a b => (t = 1 \/ (nohas a = true /\ nohas b = true)) /\ times_ok a t /\ times_ok b t
  | MEvery _ m1 | MHas _ m1 | MCountOf m1 | MMaxMin _ _ m1 => (t = 1 \/ nohas m1 = true) /\ times_ok m1 t
  | MListOf _ l => (fix all l := match l with [] => True | m1 :: r => ((t = 1 \/ nohas m1 = true) /\ times_ok m1 t) /\ all r end) l
  end.

(** selected elements of a list *)
Definition chosen (inr : Z -> bool) (l : list Z) : list Z := map snd (filter (fun p => inr (Z.of_nat (fst p))) (combine (seq 0 (length l)) l)).
(** x is the middle element of an odd number of elements *)
Definition is_middle (x : Z) (l : list Z) : Prop := exists s k, Permutation l s /\ Sorted Z.le s /\ length s = (2 * k + 1)%nat /\ nth_error s k = Some x.

(** expressions without container matchers *)
Fixpoint logical (m : matcher) : Prop :=
  match m with
  | MBase _ => True
  | MPoly _ m1 | MNot m1 | MCaseLess m1 | MSpaceLess m1 => logical m1
  | MCond _ a b | MAnd a b | MOr a b => logical a /\ logical b
  | MAllOf l | MAnyOf l | MNoneOf l => (fix all l := match l with [] => True | m1 :: r => logical m1 /\ all r end) l
  | _ => False
  end.
(** their truth value as a boolean expression over the base predicates *)
Fixpoint truth (m : matcher) (ci sq : bool) (v : val) : bool :=
  match m with
  | MBase p => p ci sq v
  | MPoly f m1 => let b := truth m1 (f_ci f || ci) (f_sq f || sq) v in if f_neg f then negb b else b
  | MNot m1 => negb (truth m1 ci sq v)
  | MCond b x y => if b then truth x ci sq v else truth y ci sq v
  | MAnd x y => truth x ci sq v && truth y ci sq v
  | MOr x y => truth x ci sq v || truth y ci sq v
  | MAllOf l => forallb (fun m1 => truth m1 ci sq v) l
  | MAnyOf l => existsb (fun m1 => truth m1 ci sq v) l
  | MNoneOf l => forallb (fun m1 => negb (truth m1 ci sq v)) l
  | MCaseLess m1 => truth m1 true sq v
  | MSpaceLess m1 => truth m1 ci true v
  | _ => false
  end.
(** is it an exclamation mark *)
Definition is_not (o : oper) : bool := match o with OpNot => true | _ => false end.
(** how many of them *)
Definition nots (ops : list oper) : nat := length (filter is_not ops).
(** is it Pair(k, v) *)
Definition is_pair (m : matcher) : bool := match m with MPoly _ (MPair _ _) => true | _ => false end.
