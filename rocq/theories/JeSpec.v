(** What Je is to say. *)
From Coq Require Import List NArith ZArith Bool Arith.
From Verif Require Import Base MatcherModel JeModel.
Import ListNotations.

(** the times a matcher is turned round: each ! and each Not *)
Fixpoint turns (m : jmatcher) : nat :=
  match m with
  | Je _ _ => 0
  | Operated ops m' => count_occ Bool.bool_dec (map (fun o => match o with OpNot => true | _ => false end) ops) true + turns m'
  | Not_ m' => S (turns m')
  end.
(** somewhere a ~ makes case not matter *)
Fixpoint caseless (m : jmatcher) : Prop :=
  match m with Je _ _ => False | Operated ops m' => In OpCaseless ops \/ caseless m' | Not_ m' => caseless m' end.
(** what is expected, and where *)
Fixpoint expectation (m : jmatcher) : bytes := match m with Je e _ => e | Operated _ m' | Not_ m' => expectation m' end.
(** the selector *)
Fixpoint place (m : jmatcher) : bytes := match m with Je _ s => s | Operated _ m' | Not_ m' => place m' end.
(** case does matter or not *)
Definition case_of (m : jmatcher) (cl : bool) : Prop := cl = true <-> caseless m.
(** the verdict for a document that meets the expectation or not: refused or accepted, the other way round if turned an odd number of times *)
Definition decided (m : jmatcher) (meets : Prop) (v : verdict) : Prop :=
  (v = Accepted /\ (meets <-> Nat.Even (turns m))) \/ (v = Refused false /\ (meets <-> Nat.Odd (turns m))).
