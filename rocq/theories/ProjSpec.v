(** What a matcher expression over pointers, members and conversions means. *)
From Coq Require Import List ZArith NArith Bool.
From Verif Require Import FailModel MatcherModel ProjModel.
Import ListNotations.
Local Open Scope Z_scope.

(** operators that may be written before any part: ! ~ *; no range and no number of times *)
Definition simple_flags (f : flags) : Prop := f_rs f = -1 /\ f_re f = -1 /\ f_times f = 1.
Fixpoint simple (m : pmatcher) : Prop :=
  match m with
  | PBase _ => True
  | PPoly f m1 => simple_flags f /\ simple m1
  | PAnd l r | POr l r => simple l /\ simple r
  | PAllOf l | PAnyOf l => (fix all (l : list pmatcher) : Prop := match l with [] => True | m1 :: r => simple m1 /\ all r end) l
  | PNot m1 | PPointee m1 | PMember _ m1 | PCastOf _ m1 | PEvery m1 | PHas m1 => simple m1
  end.

(** the elements of a container that are looked at: those before number 5413722, the default end of ranges *)
Definition at_place (v : pval) (k : nat) (x : pval) : Prop := nth_error (match v with Seq l => l | _ => [] end) k = Some x /\ Z.of_nat k < 5413722.

(** what is asked of a value; [ci]: letters in either case, [sq]: spaces squashed *)
Fixpoint means (ci sq : bool) (m : pmatcher) (v : pval) {struct m} : Prop :=
  match m with
  | PBase q => q ci sq v = true
  | PPoly f m1 => let p := means (f_ci f || ci) (f_sq f || sq) m1 v in if f_neg f then ~ p else p
  | PNot m1 => ~ means ci sq m1 v
  | PAnd l r => means ci sq l v /\ means ci sq r v
  | POr l r => means ci sq l v \/ means ci sq r v
  | PAllOf l => (fix all (l : list pmatcher) : Prop := match l with [] => True | m1 :: r => means ci sq m1 v /\ all r end) l
  | PAnyOf l => (fix any (l : list pmatcher) : Prop := match l with [] => False | m1 :: r => means ci sq m1 v \/ any r end) l
  | PPointee m1 => exists x, v = Ptr (Some x) /\ means ci sq m1 x
  | PMember g m1 => exists o, (v = Ptr (Some o) \/ (v = o /\ forall p, v <> Ptr p)) /\ means ci sq m1 (g o)
  | PCastOf g m1 => means ci sq m1 (g v)
  | PEvery m1 => forall k x, at_place v k x -> means ci sq m1 x
  | PHas m1 => exists k x, at_place v k x /\ means ci sq m1 x
  end.

(** no null pointer is read: both sides of && and || and all parts of AllOf are looked at, those of AnyOf up to the first
    that holds, all elements for Every, those up to the first that is asked for for Has *)
Fixpoint safe (ci sq : bool) (m : pmatcher) (v : pval) {struct m} : Prop :=
  match m with
  | PBase _ => True
  | PPoly f m1 => safe (f_ci f || ci) (f_sq f || sq) m1 v
  | PNot m1 => safe ci sq m1 v
  | PAnd l r | POr l r => safe ci sq l v /\ safe ci sq r v
  | PAllOf l => (fix all (l : list pmatcher) : Prop := match l with [] => True | m1 :: r => safe ci sq m1 v /\ all r end) l
  | PAnyOf l => (fix all (l : list pmatcher) : Prop := match l with [] => True | m1 :: r => safe ci sq m1 v /\ (means ci sq m1 v \/ all r) end) l
  | PPointee m1 => exists x, v = Ptr (Some x) /\ safe ci sq m1 x
  | PMember g m1 => exists o, (v = Ptr (Some o) \/ (v = o /\ forall p, v <> Ptr p)) /\ safe ci sq m1 (g o)
  | PCastOf g m1 => safe ci sq m1 (g v)
  | PEvery m1 => forall k x, at_place v k x -> safe ci sq m1 x
  | PHas m1 => forall k x, at_place v k x -> (forall j y, at_place v j y -> (j < k)%nat -> ~ means ci sq m1 y) -> safe ci sq m1 x
  end.

(** accepted, rejected *)
Definition accepts (m : pmatcher) (v : pval) : Prop := pmatches m ctx0 v = Some Null.
Definition rejects (m : pmatcher) (v : pval) : Prop := exists f, pmatches m ctx0 v = Some f /\ f <> Null.
Definition crashes (m : pmatcher) (v : pval) : Prop := pmatches m ctx0 v = None.

(** an operator written before a matcher *)
Definition with_op (o : oper) (m : pmatcher) : pmatcher := match m with PPoly f m1 => PPoly (apply_op f o) m1 | _ => m end.
(** Pointee(m), Member(m, …), CastOf(m) as written, without operators *)
Definition poly (m : pmatcher) : pmatcher := PPoly flags0 m.
(** the matchers that go on to another value *)
Definition leads (K : pmatcher -> pmatcher) : Prop := K = PPointee \/ (exists g, K = PMember g) \/ exists g, K = PCastOf g.
(** (start, end), / end, * n *)
Definition is_range (o : oper) : Prop := (exists s e, o = OpRange s e) \/ (exists e, o = OpEnd e) \/ exists n, o = OpTimes n.
(** a number *)
Definition is_num (z : Z) : pmatcher := poly (PBase (fun _ _ v => match v with Plain (VNum y) => y =? z | _ => false end)).
(** NULL (h2_matches.hpp:41-60) *)
Definition is_null : pmatcher := poly (PBase (fun _ _ v => match v with Ptr None => true | _ => false end)).
Definition num (z : Z) : pval := Plain (VNum z).
