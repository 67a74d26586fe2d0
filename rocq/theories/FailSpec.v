(** Failure trees as a reader of the report sees them: failures with an ordered list of inner failures. *)
From Coq Require Import List ZArith Bool.
From Verif Require Import FailModel.
Import ListNotations.

(** a failure and those reported below it *)
Inductive rose := Rose (label seqno : Z) (kids : list rose).
(** the failures a pointer stands for *)
Fixpoint roses (f : fail) : list rose :=
  match f with Null => [] | Fail l s c b => Rose l s (roses c) :: roses b end.
(** report of one failure: itself with its number among its siblings and its depth, then those below; then the next one *)
Fixpoint report_one (r : rose) (i d : nat) : list (Z * Z * nat * nat) :=
  match r with
  | Rose l s kids => (l, s, i, d) :: (fix from (j : nat) (ks : list rose) := match ks with [] => [] | k :: r => report_one k j (S d) ++ from (S j) r end) 0%nat kids
  end.
(** report of several *)
Fixpoint report (i d : nat) (rs : list rose) : list (Z * Z * nat * nat) :=
  match rs with [] => [] | r :: q => report_one r i d ++ report (S i) d q end.
(** what identifies a failure in a report *)
Definition who (x : Z * Z * nat * nat) : Z * Z := let '(l, s, _, _) := x in (l, s).
(** how deep it is shown *)
Definition depth (x : Z * Z * nat * nat) : nat := snd x.
(** the failures visited *)
Definition visited (f : fail) : list (Z * Z) := map who (foreach f 0 0).
(** attach a list of failures, one after the other, each as sibling or as child (true) *)
Definition attach (f : fail) (x : bool * fail) : fail := if fst x then append_child f (snd x) else append_subling f (snd x).
(** all of them, starting with none *)
Definition attach_all (l : list (bool * fail)) : fail := fold_left attach l Null.
