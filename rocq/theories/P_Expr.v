(** C41: arithmetic in JSON. *)
From Coq Require Import List NArith ZArith Bool Arith Lia Factorial.
From Verif Require Import Base ExprModel ExprSpec ExprProofs ExprProofs2 ExprSpec2 ExprProofs3.
Import ListNotations.
Local Open Scope N_scope.

(** C41: a text of tokens with any blanks has a value exactly if the tokens are an expression by the layers of precedence, and then
    the value is the meaning of that expression - in every number domain; all else is rejected *)
Theorem C41_value : forall (A : alg) ts s v, written ts s -> (evaluate A s = Some v <-> exists t, derives LList ts t /\ v = worth A t).
Proof. exact evaluate_worth. Qed.
Print Assumptions C41_value.
(** tokens are never two expressions *)
Theorem C41_unambiguous : forall ts t t', derives LList ts t -> derives LList ts t' -> t = t'.
Proof. exact derives_fun. Qed.
Print Assumptions C41_unambiguous.
(** every expression over the supported functions and operators has such a text *)
Theorem C41_expressible : forall t, wellformed t -> exists ts s, written ts s /\ derives LList ts t.
Proof. exact tree_text. Qed.
Print Assumptions C41_expressible.
(** for every text at all: accepted exactly if its tokens are an expression *)
Theorem C41_accepted : forall s t, compile s = Some t <-> derives LList (lex 0 s) t.
Proof. exact compile_derives. Qed.
Print Assumptions C41_accepted.
(** the recursive descent ends on every list of tokens *)
Theorem C41_terminates : forall ts, parse (calls ts) JList ts <> Fuel.
Proof. exact parse_calls. Qed.
Print Assumptions C41_terminates.
Example C41_example :
  (exists ts, written ts (str "1 + 2*(3-4)^2") /\ derives LList ts (App2 (str "+") (Lit (str "1")) (App2 (str "*") (Lit (str "2")) (App2 (str "pow") (App2 (str "-") (Lit (str "3")) (Lit (str "4"))) (Lit (str "2")))))) /\
  evaluate ints (str "1 + 2*(3-4)^2") = Some 3%Z /\ evaluate ints (str "2-3-4") = Some (-5)%Z /\ evaluate ints (str "2*3+") = None /\ evaluate ints (str "1 2") = None.
Proof.
  split; [|vm_compute; auto]. exists [TNum (str "1"); TAdd; TNum (str "2"); TMul (str "*"); TOpen; TNum (str "3"); TSub; TNum (str "4"); TClose; TPow; TNum (str "2")]. split.
  - assert (D : forall c, 48 <= c -> c <= 57 -> decimal [c]).
    { intros c H1 H2. exists [c], [], []. repeat split; auto; [constructor; [split; auto|constructor]|left; auto|left; auto|left; discriminate]. }
    assert (B : blanks (str " ")) by (repeat constructor). assert (B0 : blanks []) by constructor.
    change (str "1 + 2*(3-4)^2") with ([] ++ str "1" ++ (str " " ++ str "+" ++ (str " " ++ str "2" ++ ([] ++ str "*" ++ ([] ++ str "(" ++ ([] ++ str "3" ++ ([] ++ str "-" ++ ([] ++ str "4" ++ ([] ++ str ")" ++ ([] ++ str "^" ++ ([] ++ str "2" ++ []))))))))))).
    repeat (apply W_token; [first [exact B|exact B0]|first [apply S_num; apply D; vm_compute; discriminate|constructor]|cbn; unfold wordy; try lia|]). apply W_end. exact B0.
  - assert (C : compile (str "1 + 2*(3-4)^2") = Some (App2 (str "+") (Lit (str "1")) (App2 (str "*") (Lit (str "2")) (App2 (str "pow") (App2 (str "-") (Lit (str "3")) (Lit (str "4"))) (Lit (str "2")))))) by (vm_compute; reflexivity).
    apply compile_derives in C. exact C.
Qed.
Example C41_hexadecimal : (exists ts, written ts (str "0x1F + 1") /\ derives LList ts (App2 (str "+") (Lit (str "0x1F")) (Lit (str "1")))) /\ compile (str "0x1G") = None.
Proof.
  split; [|vm_compute; reflexivity]. exists [TNum (str "0x1F"); TAdd; TNum (str "1")]. split.
  - change (str "0x1F + 1") with ([] ++ str "0x1F" ++ (str " " ++ str "+" ++ (str " " ++ str "1" ++ []))). assert (B : blanks (str " ")) by (repeat constructor). assert (B0 : blanks []) by constructor.
    apply W_token; [exact B0|apply S_hex; exists 120, (str "1F"); split; [reflexivity|split; [left; reflexivity|split; [discriminate|repeat constructor; unfold hex_digit, digit; vm_compute; intuition discriminate]]]|cbn; unfold wordy; lia|].
    apply W_token; [exact B|constructor|exact Logic.I|]. apply W_token; [exact B|apply S_num; exists (str "1"), [], []; repeat split; [constructor; [split; vm_compute; discriminate|constructor]|left; reflexivity|left; reflexivity|left; discriminate]|exact Logic.I|]. apply W_end. exact B0.
  - assert (C : compile (str "0x1F + 1") = Some (App2 (str "+") (Lit (str "0x1F")) (Lit (str "1")))) by (vm_compute; reflexivity). apply compile_derives in C. exact C.
Qed.
(** a minus binds tighter than a power, and powers group to the left *)
Theorem C41_minus_power_refuted : evaluate ints (str "-2^2") = Some 4%Z /\ (- (2 ^ 2) <> 4)%Z.
Proof. split; [vm_compute; reflexivity|discriminate]. Qed.
Print Assumptions C41_minus_power_refuted.
Theorem C41_power_left_refuted : evaluate ints (str "2^3^2") = Some ((2 ^ 3) ^ 2)%Z /\ ((2 ^ 3) ^ 2 <> 2 ^ (3 ^ 2))%Z.
Proof. split; [vm_compute; reflexivity|discriminate]. Qed.
Print Assumptions C41_power_left_refuted.
(** factorials and arrangements up to 20 are exact *)
Theorem C41_factorial : forall n, (n <= 20)%nat -> factorial_ul (N.of_nat n) = N.of_nat (fact n).
Proof. exact factorial_exact. Qed.
Print Assumptions C41_factorial.
Theorem C41_arrangements : forall n m, (m <= n)%nat -> (n <= 20)%nat -> pnm_ul (N.of_nat n) (N.of_nat m) * N.of_nat (fact (n - m)) = N.of_nat (fact n).
Proof. exact pnm_exact. Qed.
Print Assumptions C41_arrangements.
Example C41_factorial_example : factorial_ul 5 = 120 /\ pnm_ul 5 2 = 20.
Proof. vm_compute. auto. Qed.
(** beyond, they wrap; and arrangements of more out of fewer are not 0 *)
Theorem C41_factorial_refuted : exists n, factorial_ul (N.of_nat n) <> N.of_nat (fact n).
Proof. exists 21%nat. exact factorial_wrap. Qed.
Print Assumptions C41_factorial_refuted.
Theorem C41_arrangements_refuted : exists n m, n < m /\ pnm_ul n m <> 0.
Proof. exists 2, 5. split; [reflexivity|vm_compute; discriminate]. Qed.
Print Assumptions C41_arrangements_refuted.
