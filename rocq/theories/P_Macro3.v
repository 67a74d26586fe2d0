(** C99: the macros for stubs, mocks, exceptions and DNS take their arguments apart. *)
From Coq Require Import List NArith Bool Arith.
From Verif Require Import Base MacroModel MacroSpec MacroSpec2 MacroSpec4 MacroProofs15 MacroProofs16 MacroProofs18 MacroProofs21 MacroProofs23 MacroProofs24.
Import ListNotations.
Local Open Scope N_scope.

(** STUB of a function, a method or a method of an object, with a signature. *)
Theorem C99_stub : forall p s, sound p -> means s -> forall d, value d -> becomes (macro_use (str "H2STUB") (written p ++ [fst s; d])) (stubbed p (snd s) d).
Proof. exact stub_becomes. Qed.
Print Assumptions C99_stub.
(** STUB of a function whatever its signature. *)
Theorem C99_stub_source : forall o d, value o -> value d -> becomes (macro_use (str "H2STUB") [o; d])
  (words (str "h2::h2_runner::stub") ++ group (listed [plainly o; words (str "(void*)") ++ d; spelled o; here])).
Proof. exact source_becomes. Qed.
Print Assumptions C99_stub_source.
(** UNSTUB is about the function that STUB with the same arguments is about. *)
Theorem C99_unstub : forall p s, sound p -> means s -> becomes (macro_use (str "H2UNSTUB") (written p ++ [fst s])) (unstubbed (pointer p (snd s))).
Proof. exact unstub_becomes. Qed.
Print Assumptions C99_unstub.
Theorem C99_unstub_source : forall o, value o -> becomes (macro_use (str "H2UNSTUB") [o]) (unstubbed (plainly o)) /\ becomes (macro_use (str "H2UNSTUBS") [o]) (unstubbed (plainly o)).
Proof. exact unsource_becomes. Qed.
Print Assumptions C99_unstub_source.
(** So is UNSTUBS, with the type of the result and the parameters. *)
Theorem C99_unstubs : forall p r, sound p -> means r -> forall args, Forall value args -> (length args <= 63)%nat ->
  becomes (macro_use (str "H2UNSTUBS") (written p ++ [fst r; group (listed args)])) (unstubbed (pointer p (snd r ++ group (listed args)))).
Proof. exact unstubs_becomes. Qed.
Print Assumptions C99_unstubs.
(** STUBS puts a function written in place there, with the object before the parameters for methods, also when there are no parameters. *)
Theorem C99_stubs : forall p r args, sound p -> means r -> (forall f, p = Function f -> as_given r) -> Forall value args -> (length args <= 63)%nat ->
  becomes (macro_use (str "H2STUBS") (written p ++ [fst r; group (listed args)])) (kept (str "h2_stuber") p (snd r ++ group (listed args)) ++ words (str "=") ++ lambda p args (snd r)).
Proof. exact stubs_given. Qed.
Print Assumptions C99_stubs.
(** Refuted for functions: parentheses around the type of the result stay around it behind the arrow. *)
Theorem C99_stubs_result_refuted : exists f r args, means f /\ means r /\ Forall value args /\ (length args <= 63)%nat /\
  becomes (macro_use (str "H2STUBS") [fst f; fst r; group (listed args)]) (kept (str "h2_stuber") (Function f) (snd r ++ group (listed args)) ++ words (str "=") ++ lambda (Function f) args (group (snd r))) /\
  ~ becomes (macro_use (str "H2STUBS") [fst f; fst r; group (listed args)]) (kept (str "h2_stuber") (Function f) (snd r ++ group (listed args)) ++ words (str "=") ++ lambda (Function f) args (snd r)).
Proof. exact result_stays. Qed.
Print Assumptions C99_stubs_result_refuted.
(** MOCK of a function, a method or a method of an object. *)
Theorem C99_mock : forall p s, sound p -> means s -> (forall f, p = Function f -> as_given f) -> becomes (macro_use (str "H2MOCK") (written p ++ [fst s])) (kept (str "h2_mocker") p (snd s)).
Proof. exact mock_becomes. Qed.
Print Assumptions C99_mock.
(** MOCKS adds what is inspected and the function written in place. *)
Theorem C99_mocks : forall p r, sound p -> means r -> forall args, Forall value args -> (length args <= 63)%nat -> forall i, value i -> (forall f, p = Function f -> as_given f) ->
  becomes (macro_use (str "H2MOCKS") (written p ++ [fst r; group (listed args); i]))
          (kept (str "h2_mocker") p (snd r ++ group (listed args)) ++ words (str ".") ++ i ++ words (str "=") ++ lambda p args (snd r)).
Proof. exact mocks_becomes. Qed.
Print Assumptions C99_mocks.
(** Catch with nothing, with a type, and with a type and a matcher. *)
Theorem C99_catch : becomes (macro_use (str "H2Catch") []) (catches (words (str "nothrow")) (words (str "_"))) /\
  (forall t, value t -> becomes (macro_use (str "H2Catch") [t]) (catches t (words (str "_")))) /\
  (forall t m, value t -> value m -> becomes (macro_use (str "H2Catch") [t; m]) (catches t m)).
Proof. exact catch_becomes. Qed.
Print Assumptions C99_catch.
(** DNS hands over the number of its arguments and the arguments. *)
Theorem C99_dns : forall args, args <> [] -> Forall value args -> (length args <= 63)%nat ->
  becomes (macro_use (str "H2DNS") args) (words (str "h2::h2_dns::setaddrinfo") ++ group (listed ([numeral (length args)] :: args))).
Proof. exact dns_becomes. Qed.
Print Assumptions C99_dns.

Example C99_stub_case : becomes (words (str "H2STUB(p, int(p,q), q)")) (words (str "h2::h2_runner::stub(h2::h2_fp<int(p,q)>::get(p), (void*)(q), H2_SPELLED(p), H2_FILINE)")) /\
  becomes (words (str "H2STUB((p,q), p, int(p,q), q)")) (words (str "h2::h2_stuber<__COUNTER__, p,q, int(p,q)>::I(h2::h2_fp<p,q, int(p,q)>::get(&p,q::p), H2_SPELLED((p,q)) ""::"" H2_SPELLED(p), H2_FILINE) = q")).
Proof. split; [computed (C99_stub (Function a_p) a_sig means_p means_sig [i_q] q_value)|computed (C99_stub (Method a_pq a_p) a_sig (conj means_pq means_p) means_sig [i_q] q_value)]. Qed.
Example C99_stub_source_case : becomes (words (str "H2STUB((int)3, q)")) (words (str "h2::h2_runner::stub(h2::h2_fp<>::get((int)3), (void*)q, H2_SPELLED((int)3), H2_FILINE)")).
Proof. computed (C99_stub_source (words (str "(int)3")) [i_q] cast_value q_value). Qed.
Example C99_unstub_case : becomes (words (str "H2UNSTUB((int)3, (p,q), p, int(p,q))")) (words (str "h2::h2_runner::unstub(h2::h2_fp<p,q, int(p,q)>::get(h2::h2_pointer_if((int)3), &p,q::p))")).
Proof. computed (C99_unstub (ObjectMethod (words (str "(int)3")) a_pq a_p) a_sig (conj cast_value (conj means_pq means_p)) means_sig). Qed.
Example C99_unstub_source_case : becomes (words (str "H2UNSTUBS((int)3)")) (words (str "h2::h2_runner::unstub(h2::h2_fp<>::get((int)3))")).
Proof. computed (proj2 (C99_unstub_source (words (str "(int)3")) cast_value)). Qed.
Example C99_unstubs_case : becomes (words (str "H2UNSTUBS(p, (p,q), ((p,q),(int)3))")) (words (str "h2::h2_runner::unstub(h2::h2_fp<p,q ((p,q),(int)3)>::get(p))")).
Proof. computed (C99_unstubs (Function a_p) a_pq means_p means_pq packs packs_value packs_few). Qed.
Example C99_stubs_case :
  becomes (words (str "H2STUBS((p,q), p, (p,q), ((p,q),(int)3))"))
    (words (str "h2::h2_stuber<__COUNTER__, p,q, p,q ((p,q),(int)3)>::I(h2::h2_fp<p,q, p,q ((p,q),(int)3)>::get(&p,q::p), H2_SPELLED((p,q)) ""::"" H2_SPELLED(p), H2_FILINE) = [](p,q* This, (p,q),(int)3) -> p,q")) /\
  becomes (words (str "H2STUBS(q, p, p, ())")) (words (str "h2::h2_stuber<__COUNTER__, q, p ()>::I(h2::h2_fp<q, p ()>::get(&q::p), H2_SPELLED(q) ""::"" H2_SPELLED(p), H2_FILINE) = [](q* This) -> p")).
Proof.
  split; [computed (C99_stubs (Method a_pq a_p) a_pq packs (conj means_pq means_p) means_pq ltac:(discriminate) packs_value packs_few)|].
  computed (C99_stubs (Method a_q a_p) a_p [] (conj means_q means_p) means_p ltac:(discriminate) ltac:(constructor) ltac:(cbn; repeat constructor)).
Qed.
Example C99_mock_case : becomes (words (str "H2MOCK(p, int(p,q))")) (words (str "h2::h2_mocker<__COUNTER__, std::false_type, int(p,q)>::I(h2::h2_fp<int(p,q)>::get(p), H2_SPELLED(p), H2_FILINE)")).
Proof. computed (C99_mock (Function a_p) a_sig means_p means_sig ltac:(intros f E; injection E as <-; reflexivity)). Qed.
Example C99_mocks_case : becomes (words (str "H2MOCKS((int)3, (p,q), p, p, (), q)"))
  (words (str "h2::h2_mocker<__COUNTER__, p,q, p ()>::I(h2::h2_fp<p,q, p ()>::get(h2::h2_pointer_if((int)3), &p,q::p), H2_SPELLED((p,q)) ""::"" H2_SPELLED(p), H2_FILINE).q = [](p,q* This) -> p")).
Proof. computed (C99_mocks (ObjectMethod (words (str "(int)3")) a_pq a_p) a_p (conj cast_value (conj means_pq means_p)) means_p [] ltac:(constructor) ltac:(cbn; repeat constructor) [i_q] q_value ltac:(discriminate)). Qed.
Example C99_catch_case : becomes (words (str "H2Catch(p, (int)3)")) (words (str "for (auto _Q__ = h2::h2_exception::try_catch(); _Q__; h2::h2_exception::check_catch<p>((int)3, H2_FILINE)) if (!::setjmp(h2::h2_exception::I().catch_hole))")).
Proof. computed (proj2 (proj2 C99_catch) [i_p] (words (str "(int)3")) p_value cast_value). Qed.
Example C99_dns_case : becomes (words (str "H2DNS((p,q), (int)3)")) (words (str "h2::h2_dns::setaddrinfo(2, (p,q), (int)3)")).
Proof. computed (C99_dns packs ltac:(discriminate) packs_value packs_few). Qed.
