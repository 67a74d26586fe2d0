(** What the mock properties speak about, independently of the selection loop. *)
From Coq Require Import List ZArith Bool.
From Verif Require Import MockModel.
Import ListNotations.
Local Open Scope Z_scope.

(** every argument satisfies its matcher *)
Definition accepts {V} (ms : list (V -> bool)) (args : list V) : Prop :=
  forall i m a, nth_error ms i = Some m -> nth_error args i = Some a -> m a = true.
(** argument number p is refused *)
Definition refused {V} (ms : list (V -> bool)) (args : list V) (p : nat) : Prop :=
  exists m a, nth_error ms p = Some m /\ nth_error args p = Some a /\ m a = false.

(** the declared call ranges: those of the explicit expectations in order; a modifier without one declares "any number" *)
Definition range (b : bounds) : Z * Z :=
  match b with
  | Once => (1, 1) | Twice => (2, 2) | Times n => (n, n) | Any => (0, 2147483647)
  | Atleast n => (n, 2147483647) | Atmost n => (0, n) | Between l r => (l, r)
  end.
Definition explicit {V R} (d : decl V R) : list (Z * Z) := match d with Expect b _ => [range b] | _ => [] end.
Definition is_greed {V R} (d : decl V R) : bool := match d with Greed _ => true | _ => false end.
Fixpoint ranges {V R} (ds : list (decl V R)) : list (Z * Z) :=
  match ds with
  | [] => []
  | Greed _ :: r => ranges r
  | Expect b _ :: r => range b :: flat_map explicit r
  | _ :: r => (0, 2147483647) :: flat_map explicit r
  end.
(** lower bounds do not exceed upper bounds *)
Definition proper {V R} (ds : list (decl V R)) : Prop := forall b ms, In (Expect b ms) ds -> fst (range b) <= snd (range b).

(** number of calls charged to expectation i *)
Definition charged (i : nat) (os : list outcome) : Z :=
  Z.of_nat (length (filter (fun o => match o_charged o with Some j => Nat.eqb j i | None => false end) os)).

(** a declaration in groups: every expectation with its own modifiers *)
Inductive modifier (V R : Type) := MWith (ms : list (V -> bool)) | MTh (i : nat) (m : V -> bool) | MReturn (r : R).
Arguments MWith {V R}. Arguments MTh {V R}. Arguments MReturn {V R}.
Record group (V R : Type) := mkgroup { g_bounds : bounds; g_matchers : list (V -> bool); g_mods : list (modifier V R) }.
Arguments mkgroup {V R}. Arguments g_bounds {V R}. Arguments g_matchers {V R}. Arguments g_mods {V R}.
Definition as_decl {V R} (m : modifier V R) : decl V R :=
  match m with MWith ms => With ms | MTh i m => Th i m | MReturn r => Return r end.
Definition group_decls {V R} (g : group V R) : list (decl V R) := Expect (g_bounds g) (g_matchers g) :: map as_decl (g_mods g).
(** matchers and routine of one group *)
Definition modify {V R} (x : list (V -> bool) * option R) (m : modifier V R) : list (V -> bool) * option R :=
  match m with
  | MWith ms => (full ms, snd x)
  | MTh i m => (firstn i (fst x) ++ match skipn i (fst x) with [] => [] | _ :: r => m :: r end, snd x)
  | MReturn r => (fst x, Some r)
  end.
Definition group_value {V R} (g : group V R) : list (V -> bool) * option R := fold_left modify (g_mods g) (full (g_matchers g), None).
