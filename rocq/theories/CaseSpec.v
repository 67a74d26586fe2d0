(** What the execution of a case should amount to. *)
From Coq Require Import List NArith Bool Arith.
From Verif Require Import CaseModel.
Import ListNotations.
Local Open Scope N_scope.

(** is this statement a real failure *)
Definition hard (s : stmt) : Prop := match s with Raise _ false => True | _ => False end.
(** no real failure in a block *)
Definition soft_block (b : block) : Prop := forall s, In s (b_stmts b) -> ~ hard s.
(** nothing raised in a block *)
Definition quiet_block (b : block) : Prop := forall i w, ~ In (Raise i w) (b_stmts b).
(** a block that a failure does not leave *)
Definition safe_block (o : opts) (b : block) : Prop := o_continue o = true \/ soft_block b.
(** what a statement leaves in the log *)
Definition ev_of (s : stmt) : ev := match s with Raise id w => Raised id w | Do id => Did id end.
(** [stops o l l' whole]: of the statements l exactly l' are executed; all of them iff [whole] *)
Inductive stops (o : opts) : list stmt -> list stmt -> bool -> Prop :=
| stops_all : forall l, (o_continue o = true \/ forall s, In s l -> ~ hard s) -> stops o l l true
| stops_at : forall pre s post, o_continue o = false -> (forall s', In s' pre -> ~ hard s') -> hard s -> stops o (pre ++ s :: post) (pre ++ [s]) false.
(** failures in a log *)
Definition real_failure (l : list ev) : Prop := exists id, In (Raised id false) l.
Definition some_warning (l : list ev) : Prop := exists id, In (Raised id true) l.
(** log of a possible failure *)
Definition opt_ev (f : option N) (w : bool) : list ev := match f with Some id => [Raised id w] | None => [] end.
(** the failures in a log, in order *)
Definition raised (l : list ev) : list (N * bool) := flat_map (fun e => match e with Raised i w => [(i, w)] | _ => [] end) l.

(** what the Warning prefix is documented to do: exactly the failures of the prefixed assertions count as warnings *)
Definition wexpect (s : wstmt) : wout :=
  match s with
  | WAssert p f t => if t then WThrow else if f then (if p then WWarn else WFail) else WPass
  | WOther _ => WRun
  end.
(** the prefix is only used on assertions, and these do not throw *)
Definition wclean (s : wstmt) : Prop := match s with WAssert p _ t => p = true -> t = false | WOther p => p = false end.
(** the prefix on something it does not work on: an assertion that throws, or no assertion *)
Definition wleaves (s : wstmt) : Prop := match s with WAssert p _ t => p = true /\ t = true | WOther p => p = true end.
(** statements that use up no pending prefix: prefixed ones, other code, assertions that throw *)
Definition widle (s : wstmt) : Prop := match s with WAssert p _ t => p = true \/ t = true | WOther _ => True end.
(** what becomes of them while a prefix is pending: prefixed statements are not executed at all *)
Definition wskipped (s : wstmt) : wout := match s with WAssert true _ _ | WOther true => WSkip | _ => wexpect s end.
