(** Common vocabulary: bytes, byte strings, case folding, C string conventions.
    A C/C++ [char] is represented by its byte value as an [N] (0..255); a [std::string] by a list of bytes;
    a C string by the list of its bytes up to (not including) the terminating NUL. *)
From Coq Require Import List NArith ZArith Bool Arith Lia Ascii String.
Import ListNotations.
Local Open Scope N_scope.

(** a character (char, e.g. h2_string.hpp:1) *)
Notation byte := N (only parsing).
(** a text (h2_string or a C string, source/utils/h2_string.hpp:1) *)
Notation bytes := (list N) (only parsing).

(** Literal helper used only in examples (not in the code; the literals quoted from it, e.g. h2_runner.cpp:9) *)
Definition str (s : string) : bytes := List.map N_of_ascii (list_ascii_of_string s).
Arguments str _%string_scope.
Export StringSyntax.

(** <ctype.h> tolower in the "C" locale; used at source/utils/h2_diff.cpp:10, source/utils/h2_pattern.cpp:28,
    source/utils/h2_string.cpp:126-131. *)
Definition tolower (c : byte) : byte := if (65 <=? c) && (c <=? 90) then c + 32 else c.

(** character comparison [caseless ? tolower(a) == tolower(b) : a == b]
    (source/utils/h2_diff.cpp:10, source/utils/h2_pattern.cpp:28). *)
Definition char_eq (caseless : bool) (a b : byte) : bool :=
  if caseless then tolower a =? tolower b else a =? b.

(** the small letter of a capital one (specification side: independent of [tolower]) (what tolower() is for at h2_string.cpp:40) *)
Definition lower (c : byte) : byte := if existsb (N.eqb c) (str "ABCDEFGHIJKLMNOPQRSTUVWXYZ") then c + 32 else c.

Lemma tolower_lower : forall c, tolower c = lower c.
Proof.
  intros c. unfold tolower, lower. replace (existsb (N.eqb c) (str "ABCDEFGHIJKLMNOPQRSTUVWXYZ")) with ((65 <=? c) && (c <=? 90)); [reflexivity|].
  apply eq_iff_eq_true. rewrite andb_true_iff, !N.leb_le, existsb_exists. split.
  - intros [H1 H2]. exists c. split; [|apply N.eqb_refl]. cbn. lia.
  - intros (x & H & E). apply N.eqb_eq in E. subst x. cbn in H. lia.
Qed.

(** canonical representative of a character in a case mode (specification side) (what tolower() does at h2_string.cpp:40) *)
Definition fold_char (caseless : bool) (a : byte) : byte := if caseless then lower a else a.

(** the same for a whole string (specification side) (h2_string::tolower, used at h2_string.cpp:40) *)
Definition fold_str (caseless : bool) (s : bytes) : bytes := List.map (fold_char caseless) s.

Lemma char_eq_fold : forall cl a b, char_eq cl a b = true <-> fold_char cl a = fold_char cl b.
Proof. intros [|] a b; unfold char_eq, fold_char; rewrite <- ?tolower_lower; apply N.eqb_eq. Qed.

Lemma char_eq_fold_b : forall cl a b, char_eq cl a b = (fold_char cl a =? fold_char cl b).
Proof. intros [|] a b; unfold char_eq, fold_char; rewrite <- ?tolower_lower; reflexivity. Qed.

(** std::string operator== as used at source/utils/h2_string.cpp:39. *)
Fixpoint bytes_eqb (a b : bytes) : bool :=
  match a, b with
  | [], [] => true
  | x :: a', y :: b' => (x =? y) && bytes_eqb a' b'
  | _, _ => false
  end.

Lemma bytes_eqb_eq : forall a b, bytes_eqb a b = true <-> a = b.
Proof.
  induction a as [|x a IH]; destruct b as [|y b]; simpl; split; intro H; try easy.
  - apply andb_true_iff in H. destruct H as [H1 H2]. apply N.eqb_eq in H1. apply IH in H2. subst. reflexivity.
  - inversion H; subst. rewrite N.eqb_refl. simpl. apply IH. reflexivity.
Qed.

Lemma bytes_eqb_refl : forall a, bytes_eqb a a = true.
Proof. intros. apply bytes_eqb_eq. reflexivity. Qed.

Lemma bytes_eqb_neq : forall a b, bytes_eqb a b = false <-> a <> b.
Proof.
  intros. split; intro H.
  - intro E. apply bytes_eqb_eq in E. congruence.
  - destruct (bytes_eqb a b) eqn:E; auto. apply bytes_eqb_eq in E. contradiction.
Qed.

(** h2_string::equals (source/utils/h2_string.cpp:37-41) *)
Definition str_equals (caseless : bool) (a b : bytes) : bool :=
  if caseless then bytes_eqb (List.map tolower a) (List.map tolower b) else bytes_eqb a b.

Lemma str_equals_fold : forall cl a b, str_equals cl a b = true <-> fold_str cl a = fold_str cl b.
Proof.
  intros [|] a b; unfold str_equals, fold_str, fold_char.
  - rewrite <- !(map_ext _ _ tolower_lower). apply bytes_eqb_eq.
  - rewrite bytes_eqb_eq, !map_id. reflexivity.
Qed.
