(** C98: MATCHER and Member take their arguments apart. *)
From Coq Require Import List NArith Bool Arith.
From Verif Require Import Base MacroModel MacroSpec MacroProofs15 MacroProofs16 MacroSpec2 MacroSpec3 MacroProofs18 MacroProofs19 MacroProofs20 MacroProofs21.
Import ListNotations.
Local Open Scope N_scope.

(** Without a message in parentheses behind them all are parameters, up to five, and the message is empty. *)
Theorem C98_matcher : forall nm vs, value nm -> parameters vs -> (length vs <= 5)%nat -> becomes (macro_use (str "H2MATCHER") (nm :: vs)) (declares nm vs silent).
Proof. exact matcher_becomes. Qed.
Print Assumptions C98_matcher.
(** What stands in parentheses behind the parameters is the message, whatever the parameters are. *)
Theorem C98_message : forall nm vs m, value nm -> Forall value vs -> (length vs <= 5)%nat -> text m -> becomes (macro_use (str "H2MATCHER") (nm :: vs ++ [group m])) (declares nm vs (group m)).
Proof. exact message_becomes. Qed.
Print Assumptions C98_message.
(** Refuted: a sixth parameter is not reported, and no matcher is declared. *)
Theorem C98_six_refuted : exists nm vs, value nm /\ parameters vs /\ length vs = 6%nat /\ becomes (macro_use (str "H2MATCHER") (nm :: vs)) [].
Proof. exact six_nothing. Qed.
Print Assumptions C98_six_refuted.
(** Member with no arguments is the member itself. *)
Theorem C98_member : forall e m, value e -> value m -> becomes (macro_use (str "H2Member") [e; m]) (member_of e m).
Proof. exact named_becomes. Qed.
Print Assumptions C98_member.
(** Arguments written one after the other, of which a single one is not all in parentheses, are those the method is called with. *)
Theorem C98_method : forall e m vs, value e -> value m -> Forall value vs -> (1 <= length vs <= 61)%nat -> (forall v, vs = [v] -> unwrapped v) -> becomes (macro_use (str "H2Member") (e :: m :: vs)) (method_of e m vs).
Proof. exact method_becomes. Qed.
Print Assumptions C98_method.
(** So are those in one pair of parentheses, also when there are none. *)
Theorem C98_braced : forall e m vs, value e -> value m -> Forall value vs -> (length vs <= 63)%nat -> becomes (macro_use (str "H2Member") [e; m; group (listed vs)]) (method_of e m vs).
Proof. exact braced_becomes. Qed.
Print Assumptions C98_braced.

Example C98_matcher_case : becomes (words (str "H2MATCHER(x, (p,q), (int)3)")) (words (str "H2MATCHER2(x, (p,q), (int)3, (""""))")).
Proof. computed (C98_matcher (nm (str "x")) packs x_value packs_parameters ltac:(cbn; repeat constructor)). Qed.
Example C98_message_case : becomes (words (str "H2MATCHER(x, (int)3, (p,q))")) (words (str "H2MATCHER1(x, (int)3, (p,q))")) /\ becomes (words (str "H2MATCHER(x, ())")) (words (str "H2MATCHER0(x, ())")).
Proof.
  split; [computed (C98_message (nm (str "x")) [words (str "(int)3")] [i_p; TComma; i_q] x_value ltac:(constructor; [exact cast_value|constructor]) ltac:(cbn; repeat constructor) pq_text)|].
  computed (C98_message (nm (str "x")) [] [] x_value ltac:(constructor) ltac:(cbn; repeat constructor) text_nil).
Qed.
Example C98_member_case : becomes (words (str "H2Member((int)3, x)")) (words (str "h2::Member_member((int)3, x)")).
Proof. computed (C98_member (words (str "(int)3")) (nm (str "x")) cast_value x_value). Qed.
Example C98_method_case : becomes (words (str "H2Member((int)3, x, (int)3)")) (words (str "h2::Member_method((int)3, h2::mfp<h2::mfp_decay<decltype((int)3)>::type>::get(x), std::tuple<h2::mfp_decay<decltype((int)3)>::type>((int)3))")).
Proof.
  computed (C98_method (words (str "(int)3")) (nm (str "x")) [words (str "(int)3")] cast_value x_value ltac:(constructor; [exact cast_value|constructor]) ltac:(cbn; repeat constructor) single_cast).
Qed.
Example C98_braced_case : becomes (words (str "H2Member((int)3, x, ((p,q),(int)3))")) (words (str "h2::Member_method((int)3, h2::mfp<h2::mfp_decay<decltype((p,q))>::type,h2::mfp_decay<decltype((int)3)>::type>::get(x), std::tuple<h2::mfp_decay<decltype((p,q))>::type,h2::mfp_decay<decltype((int)3)>::type>((p,q),(int)3))")) /\
  becomes (words (str "H2Member((int)3, x, ())")) (words (str "h2::Member_method((int)3, h2::mfp<>::get(x), std::tuple<>())")).
Proof.
  split; [computed (C98_braced (words (str "(int)3")) (nm (str "x")) packs cast_value x_value (proj1 packs_countable) ltac:(cbn; repeat constructor))|].
  computed (C98_braced (words (str "(int)3")) (nm (str "x")) [] cast_value x_value ltac:(constructor) ltac:(cbn; repeat constructor)).
Qed.
