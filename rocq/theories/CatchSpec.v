(** Catch as C++ exceptions would have it: no flag, no jump buffer; the body ends or throws, and what it threw is compared with what is expected. *)
From Coq Require Import List NArith Bool.
From Verif Require Import CatchModel.
Import ListNotations.
Local Open Scope N_scope.

Inductive ends := IEnd | ILeft (* by a failed check *) | IReturn | IThrow (t v : N).
(** is what was thrown, if anything, as expected: exactly that type, and a value the matcher accepts *)
Inductive accepted : expect -> option (N * N) -> Prop :=
| acc_none : accepted ENothrow None
| acc_type t m v : m v = true -> accepted (EType t m) (Some (t, v)).
(** what code threw, if it ended or threw *)
Inductive threw : ends -> option (N * N) -> Prop :=
| th_end : threw IEnd None
| th_throw t v : threw (IThrow t v) (Some (t, v)).
(** why it is not as expected *)
Inductive because : expect -> option (N * N) -> why -> Prop :=
| be_none t m : because (EType t m) None WNothing
| be_thrown t v : because ENothrow (Some (t, v)) (WThrown t)
| be_type t m t1 v : t <> t1 -> because (EType t m) (Some (t1, v)) (WType t1)
| be_value t m v : m v = false -> because (EType t m) (Some (t, v)) (WValue t).
(** the ideal run: how code ends and what is observed *)
Inductive ideal (c : bool) : list stmt -> ends -> list event -> Prop :=
| id_nil : ideal c [] IEnd []
| id_say k r x ev : ideal c r x ev -> ideal c (CSay k :: r) x (Said k :: ev)
| id_throw t v r : ideal c (CThrow t v :: r) (IThrow t v) []
| id_return r : ideal c (CReturn :: r) IReturn []
| id_fail r : c = false -> ideal c (CFail :: r) ILeft [CheckFailed]
| id_fail_on r x ev : c = true -> ideal c r x ev -> ideal c (CFail :: r) x (CheckFailed :: ev)
| id_try_throw b r t v ev x ev2 : ideal c b (IThrow t v) ev -> ideal c r x ev2 -> ideal c (CTry b :: r) x (ev ++ ev2)
| id_try_end b r ev x ev2 : ideal c b IEnd ev -> ideal c r x ev2 -> ideal c (CTry b :: r) x (ev ++ ev2)
| id_try_out b r y ev : ideal c b y ev -> y = ILeft \/ y = IReturn -> ideal c (CTry b :: r) y ev
| id_catch_ok e b r y th ev x ev2 : ideal c b y ev -> threw y th -> accepted e th -> ideal c r x ev2 ->
    ideal c (CCatch e b :: r) x (ev ++ Verdict None :: ev2)
| id_catch_no e b r y th ev w : ideal c b y ev -> threw y th -> ~ accepted e th -> because e th w -> c = false ->
    ideal c (CCatch e b :: r) ILeft (ev ++ [Verdict (Some w)])
| id_catch_no_on e b r y th ev w x ev2 : ideal c b y ev -> threw y th -> ~ accepted e th -> because e th w -> c = true -> ideal c r x ev2 ->
    ideal c (CCatch e b :: r) x (ev ++ Verdict (Some w) :: ev2)
| id_catch_out e b r y ev : ideal c b y ev -> y = ILeft \/ y = IReturn -> ideal c (CCatch e b :: r) y ev.

(** the cases in turn *)
Inductive ideals (c : bool) : list (list stmt) -> list (list event) -> Prop :=
| ids_nil : ideals c [] []
| ids_uncaught b r t v ev es : ideal c b (IThrow t v) ev -> ideals c r es -> ideals c (b :: r) ((ev ++ [Uncaught t]) :: es)
| ids_other b r x ev es : ideal c b x ev -> (forall t v, x <> IThrow t v) -> ideals c r es -> ideals c (b :: r) (ev :: es).

(** code without a throw *)
Fixpoint throwless (s : stmt) : bool :=
  match s with CThrow _ _ => false | CTry b => forallb throwless b | CCatch _ b => forallb throwless b | _ => true end.
(** code in which the body of a Catch contains no Catch, no return, no failing check (unless checks go on after a failure), no try that
    catches anything *)
Fixpoint orderly (c inside : bool) (s : stmt) : bool :=
  match s with
  | CSay _ | CThrow _ _ => true
  | CFail => c || negb inside
  | CReturn => negb inside
  | CTry b => forallb (orderly c inside) b && (negb inside || forallb throwless b)
  | CCatch _ b => negb inside && forallb (orderly c true) b
  end.
