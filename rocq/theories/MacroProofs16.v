(** Values and texts for the cases beside the theorems of C83. *)
From Coq Require Import List NArith Bool Arith.
From Verif Require Import Base MacroModel MacroSpec MacroProofs15.
Import ListNotations.
Local Open Scope N_scope.

Local Ltac word := split; [reflexivity|apply new_name; vm_compute; reflexivity].
Lemma same : forall a b a' b', becomes a b -> a = a' -> b = b' -> becomes a' b'.
Proof. intros a b a' b' H <- <-. exact H. Qed.
Ltac computed H := apply (same _ _ _ _ H); vm_compute; reflexivity.
Lemma x_value : value (nm (str "x")).
Proof. split; [apply piece_word; [word|constructor]|discriminate]. Qed.
Lemma pack_value : value (words (str "(p,q)")).
Proof.
  split; [|discriminate]. apply (piece_group (words (str "p,q")) []); [|constructor].
  change (words (str "p,q")) with [TId (str "p") false; TComma; TId (str "q") false]. apply text_word; [word|]. apply text_comma. apply text_word; [word|constructor].
Qed.
Lemma cast_value : value (words (str "(int)3")).
Proof. split; [|discriminate]. apply (piece_group (words (str "int")) (words (str "3"))); [|apply piece_word; [exact Logic.I|constructor]]. apply text_word; [word|constructor]. Qed.
Definition three : list (list tok) := [nm (str "x"); words (str "(p,q)"); words (str "(int)3")].
Lemma three_values : Forall value three.
Proof. constructor; [exact x_value|]. constructor; [exact pack_value|]. constructor; [exact cast_value|constructor]. Qed.
Lemma m_plain : plain (nm (str "M")). Proof. apply name_plain. vm_compute. reflexivity. Qed.
Lemma comma_separates : separates (words (str "(,)")) (words (str ",")).
Proof. apply (sep_group [TComma]). apply text_comma. constructor. Qed.

Lemma test_value : value (nm (str "case_test_C1")). Proof. apply name_plain. vm_compute. reflexivity. Qed.
Lemma bare_ex : exists vs, Forall value vs /\ ~ becomes (macro_use (str "H2PP_REMOVE_PARENTHESES_IF") vs) (listed vs).
Proof. exists one_two. split; [repeat constructor; discriminate|exact bare]. Qed.
