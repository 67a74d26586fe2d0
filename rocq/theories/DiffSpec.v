(** What edit distance, similarity and LCS highlighting are supposed to mean; independent of the model. *)
From Coq Require Import List NArith Bool.
Import ListNotations.

Section Edit.
  Variable A : Type.

  (** one single-character edit *)
  Inductive edit1 : list A -> list A -> Prop :=
  | edit_insert : forall u a v, edit1 (u ++ v) (u ++ a :: v)
  | edit_delete : forall u a v, edit1 (u ++ a :: v) (u ++ v)
  | edit_substitute : forall u a b v, edit1 (u ++ a :: v) (u ++ b :: v).

  (** [edits n s t]: s can be turned into t by a sequence of n single-character edits *)
  Inductive edits : nat -> list A -> list A -> Prop :=
  | edits_done : forall s, edits 0 s s
  | edits_more : forall n s t u, edit1 s t -> edits n t u -> edits (S n) s u.

  Definition min_edits (s t : list A) (d : nat) : Prop :=
    edits d s t /\ forall n, edits n s t -> d <= n.
End Edit.
Arguments edit1 {A}. Arguments edits {A}. Arguments min_edits {A}.

Section Subseq.
  Variable A : Type.

  (** [subseq u s]: u is obtained from s by deleting elements *)
  Inductive subseq : list A -> list A -> Prop :=
  | sub_nil : subseq [] []
  | sub_skip : forall a u s, subseq u s -> subseq u (a :: s)
  | sub_take : forall a u s, subseq u s -> subseq (a :: u) (a :: s).

  (** elements of s whose mark is set *)
  Fixpoint select (marks : list bool) (s : list A) : list A :=
    match marks, s with
    | true :: m, a :: s' => a :: select m s'
    | false :: m, _ :: s' => select m s'
    | _, _ => []
    end.
End Subseq.
Arguments subseq {A}. Arguments select {A}.
