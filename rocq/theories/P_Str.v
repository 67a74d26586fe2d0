(** C42, C43, C44: unescape, replace_all, squash. *)
From Coq Require Import List NArith Bool Arith Lia.
From Verif Require Import Base StrModel StrSpec StrProofs StrProofs2.
Import ListNotations.
Local Open Scope N_scope.

(** C42: a literal of plain characters and the escapes \b \f \n \r \t and backslash-quote is turned into the text it denotes *)
Theorem C42_unescape : forall l t, denotes l t -> unescape (written l) = t.
Proof. exact unescape_ok. Qed.
Print Assumptions C42_unescape.
Example C42_example : denotes [Plain 97; Esc 110; Esc 34; Plain 110; Esc 116] [97; 10; 34; 110; 9] /\ unescape (written [Plain 97; Esc 110; Esc 34; Plain 110; Esc 116]) = [97; 10; 34; 110; 9].
Proof. split; [|vm_compute; reflexivity]. repeat constructor; discriminate. Qed.
(** an escaped backslash before an n: backslash n is meant, a backslash and a newline comes *)
Theorem C42_backslash_refuted : unescape [92; 92; 110] <> [92; 110].
Proof. vm_compute. discriminate. Qed.
Print Assumptions C42_backslash_refuted.

(** C43: for a non-empty pattern the loop ends within as many turns as the text has characters, plus one, and the result is
    the text with the occurrences, found from left to right, replaced *)
Theorem C43_replaced : forall from to s, from <> [] -> replace_loop from to (S (length s)) s 0 = Some (replace_all from to s) /\ replaced from to s (replace_all from to s).
Proof. exact replace_all_ok. Qed.
Print Assumptions C43_replaced.
(** there is only one such result *)
Theorem C43_unique : forall from to, from <> [] -> forall s r1, replaced from to s r1 -> forall r2, replaced from to s r2 -> r1 = r2.
Proof. exact replaced_unique. Qed.
Print Assumptions C43_unique.
Example C43_example : replace_all (str "aa") (str "aaa") (str "aaaaba") = str "aaaaaaba".
Proof. vm_compute. reflexivity. Qed.
(** the empty pattern: no number of turns suffices *)
Theorem C43_empty_refuted : forall to s fuel, replace_loop [] to fuel s 0 = None.
Proof. exact (fun to s fuel => replace_empty to fuel [] s). Qed.
Print Assumptions C43_empty_refuted.

(** C44: squashed form; other characters and their order unchanged; a fixed point; idempotent *)
Theorem C44_squashed : forall quote s, ~ In 0 s -> squashed quote (squash quote s).
Proof. exact squash_squashed. Qed.
Print Assumptions C44_squashed.
Theorem C44_solid : forall quote s, ~ In 0 s -> solid (squash quote s) = solid s.
Proof. exact squash_solid. Qed.
Print Assumptions C44_solid.
Theorem C44_fixed : forall quote r, ~ In 0 r -> squashed quote r -> squash quote r = r.
Proof. exact squashed_fix. Qed.
Print Assumptions C44_fixed.
Theorem C44_idempotent : forall quote s, ~ In 0 s -> squash quote (squash quote s) = squash quote s.
Proof. exact squash_idem. Qed.
Print Assumptions C44_idempotent.
Example C44_example : squash false ([32; 9] ++ str "a  b 'c  d' " ++ [10; 10]) = str "a b 'c  d'" /\ squash true (str " a '  b' ") = str "a ' b'".
Proof. split; vm_compute; reflexivity. Qed.
(** a NUL in the text: cut there, after trimming; a blank may stay at the end *)
Theorem C44_nul_refuted : exists s, squash false s = [97; 32] /\ In 98 s.
Proof. exists [97; 32; 0; 98]. split; [vm_compute; reflexivity|cbn; auto]. Qed.
Print Assumptions C44_nul_refuted.
