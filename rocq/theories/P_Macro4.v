(** C100: the macros for assertions and for parts of a case take their arguments apart. *)
From Coq Require Import List NArith Bool Arith.
From Verif Require Import Base MacroModel MacroSpec MacroSpec2 MacroSpec4 MacroSpec5 MacroProofs15 MacroProofs16 MacroProofs18 MacroProofs21 MacroProofs23 MacroProofs24 MacroProofs26 MacroProofs27.
Import ListNotations.
Local Open Scope N_scope.

(** OK and KO of one argument check what it says. *)
Theorem C100_condition : forall (oppose : bool) x, value x -> becomes (macro_use (if oppose then str "H2KO" else str "H2OK") [x]) (holds1 oppose x).
Proof. exact ok1_becomes. Qed.
Print Assumptions C100_condition.
(** OK and KO of two arguments compare the second with what the first expects. *)
Theorem C100_compare : forall (oppose : bool) e a, value e -> value a -> becomes (macro_use (if oppose then str "H2KO" else str "H2OK") [e; a]) (holds2 oppose e a).
Proof. exact ok2_becomes. Qed.
Print Assumptions C100_compare.
(** Refuted: a value with a comma outside parentheses is not taken by OK. *)
Theorem C100_comma_refuted : exists e a b, value e /\ value a /\ value b /\ forall out, ~ becomes (macro_use (str "H2OK") [e; a; b]) out.
Proof. exact three_nothing. Qed.
Print Assumptions C100_comma_refuted.
(** JE compares JSON texts, or what a selector takes of the actual one. *)
Theorem C100_json : forall e a, value e -> value a -> becomes (macro_use (str "H2JE") [e; a]) (json e a no_text) /\ (forall s, value s -> becomes (macro_use (str "H2JE") [e; a; s]) (json e a s)).
Proof. exact je_becomes. Qed.
Print Assumptions C100_json.
(** Eq with and without a tolerance. *)
Theorem C100_eq : forall e, value e -> becomes (macro_use (str "H2Eq") [e]) (equals e None) /\ (forall a, value a -> becomes (macro_use (str "H2Eq") [e; a]) (equals e (Some a))).
Proof. exact eq_becomes. Qed.
Print Assumptions C100_eq.
(** Me with the extent of the buffer before all further arguments. *)
Theorem C100_me : forall b args, value b -> Forall value args -> (length args <= 63)%nat -> becomes (macro_use (str "H2Me") (b :: args)) (same_memory b args).
Proof. exact me_becomes. Qed.
Print Assumptions C100_me.
(** UNMEM without arguments is a block, with them it is about functions. *)
Theorem C100_unmem : forall args, Forall value args -> (length args <= 63)%nat -> becomes (macro_use (str "H2UNMEM") args) (unwatched args).
Proof. exact unmem_becomes. Qed.
Print Assumptions C100_unmem.
(** BLOCK and COUT read what they are given as it is spelled. *)
Theorem C100_block : forall args, Forall value args -> (length args <= 63)%nat -> becomes (macro_use (str "H2BLOCK") args) (block (spelled (listed args))).
Proof. exact block_becomes. Qed.
Print Assumptions C100_block.
Theorem C100_cout : forall m args, value m -> Forall value args -> (length args <= 63)%nat -> becomes (macro_use (str "H2COUT") (m :: args)) (captures m args).
Proof. exact cout_becomes. Qed.
Print Assumptions C100_cout.
(** PF and SOCK are such parts, too. *)
Theorem C100_parts : (forall ms, value ms -> becomes (macro_use (str "H2PF") [ms]) (part (str "h2::h2_timer") (group (listed [ms; here])))) /\
  (forall args, Forall value args -> (length args <= 63)%nat -> becomes (macro_use (str "H2SOCK") args) (part (str "h2::h2_sock") [])).
Proof. exact parts_become. Qed.
Print Assumptions C100_parts.

Example C100_condition_case : becomes (words (str "H2OK((int)3)")) (words (str "for (h2::h2_assert H2PP_UNIQUE()(false); H2PP_UNIQUE(); H2PP_UNIQUE().failing("""", H2_SPELLED((int)3), H2_FILINE)) h2::h2_ok1(&H2PP_UNIQUE(), h2::h2_0cp() > (int)3)")).
Proof. computed (C100_condition false (words (str "(int)3")) cast_value). Qed.
Example C100_compare_case : becomes (words (str "H2KO(p, (int)3)"))
  (words (str "for (h2::h2_assert H2PP_UNIQUE()(true); H2PP_UNIQUE(); H2PP_UNIQUE().failing(H2_SPELLED(p), (H2_SPELLED((int)3)), H2_FILINE)) h2::h2_ok2(&H2PP_UNIQUE(), p, (int)3, std::is_array<decltype((int)3)>{}, std::extent<decltype((int)3)>::value)")).
Proof. computed (C100_compare true [i_p] (words (str "(int)3")) p_value cast_value). Qed.
Example C100_json_case : becomes (words (str "H2JE(p, (int)3, q)"))
  (words (str "for (h2::h2_assert H2PP_UNIQUE()(false); H2PP_UNIQUE(); H2PP_UNIQUE().failing(H2_SPELLED(p), H2_SPELLED((int)3), H2_FILINE)) h2::h2_je(&H2PP_UNIQUE(), p, (int)3, q)")).
Proof. computed (proj2 (C100_json [i_p] (words (str "(int)3")) p_value cast_value) [i_q] q_value). Qed.
Example C100_eq_case : becomes (words (str "H2Eq(p, (int)3)")) (words (str "h2::Equals(p, h2::h2_approximate() * (int)3 + h2::h2_approximate::B)")).
Proof. computed (proj2 (C100_eq [i_p] p_value) (words (str "(int)3")) cast_value). Qed.
Example C100_me_case : becomes (words (str "H2Me(p, (p,q), (int)3)")) (words (str "h2::Memcmp(p, std::extent<decltype(p)>::value, (p,q), (int)3)")) /\ becomes (words (str "H2Me(p)")) (words (str "h2::Memcmp(p, std::extent<decltype(p)>::value)")).
Proof. split; [computed (C100_me [i_p] packs p_value packs_value packs_few)|computed (C100_me [i_p] [] p_value ltac:(constructor) ltac:(cbn; repeat constructor))]. Qed.
Example C100_unmem_case : becomes (words (str "H2UNMEM((p,q), (int)3)")) (words (str "h2::h2_unmem((p,q), (int)3)")) /\
  becomes (words (str "H2UNMEM()")) (words (str "for (h2::h2_memory::stack::block H2PP_UNIQUE()(h2::ss(""unmem""), H2_FILINE); H2PP_UNIQUE();)")).
Proof. split; [computed (C100_unmem packs packs_value packs_few)|computed (C100_unmem [] ltac:(constructor) ltac:(cbn; repeat constructor))]. Qed.
Example C100_block_case : becomes (words (str "H2BLOCK((p,q), (int)3)")) (words (str "for (h2::h2_memory::stack::block H2PP_UNIQUE()(h2::ss(H2_SPELLED((p,q), (int)3)), H2_FILINE); H2PP_UNIQUE();)")).
Proof. computed (C100_block packs packs_value packs_few). Qed.
Example C100_cout_case : becomes (words (str "H2COUT((int)3, p)")) (words (str "for (h2::h2_cout H2PP_UNIQUE()((int)3, H2_SPELLED((int)3), h2::ss(H2_SPELLED(p)), H2_FILINE); H2PP_UNIQUE();)")).
Proof. computed (C100_cout (words (str "(int)3")) [[i_p]] cast_value ltac:(constructor; [exact p_value|constructor]) ltac:(cbn; repeat constructor)). Qed.
Example C100_parts_case : becomes (words (str "H2PF((int)3)")) (words (str "for (h2::h2_timer H2PP_UNIQUE()((int)3, H2_FILINE); H2PP_UNIQUE();)")).
Proof. computed (proj1 C100_parts (words (str "(int)3")) cast_value). Qed.
