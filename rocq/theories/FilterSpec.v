(** Which tests are meant to be filtered, and what a description means. *)
From Coq Require Import List NArith Bool Arith.
From Verif Require Import Base FilterModel.
Import ListNotations.
Local Open Scope N_scope.

(** p occurs in s, ignoring case *)
Definition occurs (p s : bytes) : Prop := exists a b, fold_str true s = a ++ fold_str true p ++ b.
(** p uses a wildcard character *)
Definition wildcarded (p : bytes) : Prop := exists c, In c p /\ In c [63; 42; 91; 93].

(** some pattern of ps selects the name s *)
Definition by_name (wild : bytes -> bytes -> bool) (ps : list bytes) (s : bytes) : Prop :=
  exists p, In p ps /\ (occurs p s \/ wildcarded p /\ wild p s = true).
(** some pattern of ps selects a tag of t *)
Definition by_tag (wild : bytes -> bytes -> bool) (ps : list bytes) (t : test) : Prop :=
  exists p g, In p ps /\ In g (t_tags t) /\ (fold_str true g = fold_str true p \/ wildcarded p /\ wild p g = true).

(** the ways a case c of suite s can be selected *)
Definition selects (wild : bytes -> bytes -> bool) (any file suite case tag : list bytes) (s c : test) : Prop :=
  by_name wild any (t_filine s) \/ by_name wild any (t_filine c) \/ by_name wild any (t_name s) \/ by_name wild any (t_name c) \/
  by_tag wild any s \/ by_tag wild any c \/
  by_name wild file (t_filine s) \/ by_name wild file (t_filine c) \/
  by_name wild suite (t_name s) \/ by_name wild case (t_name c) \/ by_tag wild tag s \/ by_tag wild tag c.
(** and a suite on its own *)
Definition selects_suite (wild : bytes -> bytes -> bool) (any file suite tag : list bytes) (s : test) : Prop :=
  by_name wild any (t_filine s) \/ by_name wild any (t_name s) \/ by_tag wild any s \/
  by_name wild file (t_filine s) \/ by_name wild suite (t_name s) \/ by_tag wild tag s.

Definition included (wild : bytes -> bytes -> bool) (F : filters) (s c : test) : Prop :=
  selects wild (includes F) (file_includes F) (suite_includes F) (case_includes F) (tags_includes F) s c.
Definition excluded (wild : bytes -> bytes -> bool) (F : filters) (s c : test) : Prop :=
  selects wild (excludes F) (file_excludes F) (suite_excludes F) (case_excludes F) (tags_excludes F) s c.
(** no include pattern at all *)
Definition no_includes (F : filters) : Prop :=
  includes F = [] /\ file_includes F = [] /\ suite_includes F = [] /\ case_includes F = [] /\ tags_includes F = [].
Definition suite_included (wild : bytes -> bytes -> bool) (F : filters) (s : test) : Prop :=
  selects_suite wild (includes F) (file_includes F) (suite_includes F) (tags_includes F) s.
Definition suite_excluded (wild : bytes -> bytes -> bool) (F : filters) (s : test) : Prop :=
  selects_suite wild (excludes F) (file_excludes F) (suite_excludes F) (tags_excludes F) s.

(** *** descriptions *)
(** number of double quotes *)
Definition quotes (s : bytes) : nat := length (List.filter (fun c => c =? 34) s).
Definition unquoted_end (s : bytes) : Prop := Nat.even (quotes s) = true.
(** c does not occur in s outside double quotes *)
Definition nowhere_unquoted (c : byte) (s : bytes) : Prop := forall a b, s = a ++ c :: b -> ~ unquoted_end a.
(** s = pre [mid] post, with the first unquoted brackets *)
Definition bracketed (s pre mid post : bytes) : Prop :=
  s = pre ++ 91 :: mid ++ 93 :: post /\ nowhere_unquoted 91 pre /\ unquoted_end pre /\ nowhere_unquoted 93 mid /\ unquoted_end mid.

Definition delim (c : byte) : Prop := c = 32 \/ c = 44.
(** splitting at runs of blanks and commas *)
Inductive tokens : bytes -> list bytes -> Prop :=
| tk_nil : forall d, Forall delim d -> tokens d []
| tk_last : forall d t, Forall delim d -> t <> [] -> Forall (fun c => ~ delim c) t -> tokens (d ++ t) [t]
| tk_cons : forall d t c s ts, Forall delim d -> t <> [] -> Forall (fun c => ~ delim c) t -> delim c -> tokens (c :: s) ts ->
    tokens (d ++ t ++ c :: s) (t :: ts).
Definition blank (c : byte) : Prop := c = 32 \/ (9 <= c /\ c <= 13).
(** s without its leading blanks *)
Definition stripped (s r : bytes) : Prop := exists l, s = l ++ r /\ Forall blank l /\ (forall c r', r = c :: r' -> ~ blank c).
