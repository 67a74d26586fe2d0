(** Lists for the cases beside the theorems of C83 about the foremost value. *)
From Coq Require Import List NArith Bool Arith.
From Verif Require Import Base MacroModel MacroSpec MacroSpec2 MacroProofs15 MacroProofs16.
Import ListNotations.
Local Open Scope N_scope.

Lemma one_bare : forall t, word t -> unwrapped [t].
Proof. intros t H. split; [split; [apply piece_word; [exact H|constructor]|discriminate]|]. intros a _ E. destruct a; discriminate E. Qed.
Lemma p_word : word (TId (str "p") false).
Proof. split; [reflexivity|apply new_name; vm_compute; reflexivity]. Qed.
Lemma q_word : word (TId (str "q") false).
Proof. split; [reflexivity|apply new_name; vm_compute; reflexivity]. Qed.
Lemma pq_foremost : foremost 0 [nm (str "p"); nm (str "q")] (nm (str "p")).
Proof.
  apply fore_bare; [|exact (one_bare _ p_word)]. split; [|cbn; repeat constructor]. constructor; [exact (proj1 (one_bare _ p_word))|]. constructor; [exact (proj1 (one_bare _ q_word))|constructor].
Qed.
Lemma pack_foremost : forall vs, countable (words (str "(p,q)") :: vs) -> foremost 1 (words (str "(p,q)") :: vs) (nm (str "p")).
Proof. intros vs H. exact (fore_group 0 _ _ _ pq_foremost H). Qed.
Lemma cast_bare : unwrapped (words (str "(int)3")).
Proof.
  split; [exact cast_value|]. intros a H E. change (words (str "(int)3")) with [TLp; TId (str "int") false; TRp; TNum (str "3")] in E.
  unfold group in E. injection E as E. destruct a as [|t1 [|t2 [|t3 [|t4 a]]]]; cbn in E; try discriminate E; injection E as E; subst; try discriminate.
Qed.
Definition packs : list (list tok) := [words (str "(p,q)"); words (str "(int)3")].
Lemma packs_countable : countable packs.
Proof. split; [|cbn; repeat constructor]. constructor; [exact pack_value|]. constructor; [exact cast_value|constructor]. Qed.
Lemma cast_foremost : foremost 0 [words (str "(int)3")] (words (str "(int)3")).
Proof. apply fore_bare; [|exact cast_bare]. split; [|cbn; repeat constructor]. constructor; [exact cast_value|constructor]. Qed.
Definition i_p : tok := Eval vm_compute in TId (str "p") false.
Definition i_q : tok := Eval vm_compute in TId (str "q") false.
Definition i_int : tok := Eval vm_compute in TId (str "int") false.
Definition i_3 : tok := Eval vm_compute in TNum (str "3").
Lemma packed_is : group (listed packs) = TLp :: (TLp :: [i_p; TComma; i_q] ++ TRp :: TComma :: TLp :: [i_int] ++ TRp :: [i_3]) ++ TRp :: [].
Proof. vm_compute. reflexivity. Qed.
Lemma int_word : word i_int.
Proof. split; [reflexivity|apply new_name; vm_compute; reflexivity]. Qed.
Lemma packed_value : value (group (listed packs)).
Proof.
  rewrite packed_is. split; [|discriminate]. apply piece_group; [|constructor]. apply text_group.
  - apply text_word; [exact p_word|]. apply text_comma. apply text_word; [exact q_word|constructor].
  - apply text_comma. apply text_group; [|apply text_word; [exact Logic.I|constructor]]. apply text_word; [exact int_word|constructor].
Qed.
Lemma packed_foremost : foremost 2 [group (listed packs); nm (str "x")] (nm (str "p")).
Proof.
  apply fore_group; [apply pack_foremost; exact packs_countable|]. split; [|cbn; repeat constructor]. constructor; [exact packed_value|]. constructor; [exact x_value|constructor].
Qed.
Lemma pack_countable : countable [words (str "(p,q)")].
Proof. split; [constructor; [exact pack_value|constructor]|cbn; repeat constructor]. Qed.
