(** C101: a mocked function does what was declared, and is counted when it is called from outside. *)
From Coq Require Import List Arith Bool ZArith.
From Verif Require Import MockModel MockcallModel MockcallSpec MockcallProofs MockcallProofs2.
Import ListNotations.

(** The calls charged are those not made by the function itself, in order, and by these the mock is judged. *)
Theorem C101_counted : forall V ab (own : nat -> given V) f ds n w p w' ts e, armed w f = true -> mocks w f = declares (map declared ds) ->
  run n ab (fun g => handed (own g)) w p = Some (w', ts, e) ->
  mocks w' f = after ab (declares (map declared ds)) (outer f ts) /\ check (mocks w' f) = check (fst (calls ab (declares ds) (map arguments (outer f ts)))).
Proof. exact counts. Qed.
Print Assumptions C101_counted.
(** Each of these calls does what was given with the expectation charged, or what the function itself does, with the object and the arguments of the call. *)
Theorem C101_does : forall V ab (own : nat -> given V) f ds n w p w' ts e, armed w f = true -> mocks w f = declares (map declared ds) ->
  run n ab (fun g => handed (own g)) w p = Some (w', ts, e) ->
  forall i t, nth_error (outer f ts) i = Some t -> exists this, t = Node f this (arguments t) (inside t) (ended t) /\
  match next ab own f ds (firstn i (outer f ts)) this (arguments t) with
  | None => inside t = [] /\ ended t = Left
  | Some q => exists m w1 w2, armed w1 f = false /\ run m ab (fun g => handed (own g)) w1 q = Some (w2, inside t, ended t)
  end.
Proof. exact does_what. Qed.
Print Assumptions C101_does.
(** All calls of the function inside these are calls of the function itself. *)
Theorem C101_inside : forall V ab (own : nat -> given V) f ds n w p w' ts e, armed w f = true -> mocks w f = declares (map declared ds) ->
  run n ab (fun g => handed (own g)) w p = Some (w', ts, e) ->
  forall t u, In t (outer f ts) -> among u (inside t) -> name u = f ->
  exists this m w1 w2, u = Node f this (arguments u) (inside u) (ended u) /\ run m ab (fun g => handed (own g)) w1 (meaning (own f) this (arguments u)) = Some (w2, inside u, ended u).
Proof. exact inner_own. Qed.
Print Assumptions C101_inside.
(** Unless the case is left, the mock is in force again; it is not exactly if the case was left from within the routine. *)
Theorem C101_in_force : forall V ab (own : nat -> given V) f n w p w' ts e, armed w f = true -> run n ab (fun g => handed (own g)) w p = Some (w', ts, e) -> e <> Left -> armed w' f = true.
Proof. exact back. Qed.
Print Assumptions C101_in_force.
Theorem C101_off : forall V ab (own : nat -> given V) f ds n w p w' ts e, armed w f = true -> mocks w f = declares (map declared ds) ->
  run n ab (fun g => handed (own g)) w p = Some (w', ts, e) ->
  (armed w' f = false <-> exists i t this, nth_error (outer f ts) i = Some t /\ ended t = Left /\ next ab own f ds (firstn i (outer f ts)) this (arguments t) <> None).
Proof. exact off_when. Qed.
Print Assumptions C101_off.
(** Each call is in the record, and the caller goes on with what it ended with. *)
Theorem C101_goes_on : forall V ab (own : nat -> routine V) n w g this args rest w' ts e, run n ab own w (Call g this args rest) = Some (w', ts, e) ->
  exists i e1 ts', ts = Node g this args i e1 :: ts' /\ ((e1 = Left /\ ts' = [] /\ e = Left) \/ (e1 <> Left /\ exists m w1, run m ab own w1 (rest (result e1)) = Some (w', ts', e))).
Proof. exact goes_on. Qed.
Print Assumptions C101_goes_on.
(** The fuel does not matter. *)
Theorem C101_steady : forall V ab (own : nat -> routine V) n w p r, run n ab own w p = Some r -> forall m, n <= m -> run m ab own w p = Some r.
Proof. exact more. Qed.
Print Assumptions C101_steady.
(** Refuted: that every call of a mocked function is counted; the function called Once calls itself. *)
Theorem C101_recursion_refuted : exists w p w' ts e, run 30 true hfuns w p = Some (w', ts, e) /\ armed w 0 = true /\ mocks w 0 = declares (map declared [Expect Once []]) /\
  (exists u, among u ts /\ name u = 0 /\ ~ In u (outer 0 ts)) /\ check (mocks w' 0) = [].
Proof. exact recursion_not. Qed.
Print Assumptions C101_recursion_refuted.
(** Refuted: that a mock is in force to the end of its case; a check fails in the routine, and the cleanup calls the function itself (4! = 24), uncounted. *)
Theorem C101_cleanup_refuted : exists w p w' ts w'' ts', run 30 true hfuns w p = Some (w', ts, Left) /\ armed w 0 = true /\
  mocks w 0 = declares (map declared [Expect Any []; Return (Plain (fun a => match a with [3%Z] => Leave | _ => Ret 7%Z end))]) /\
  run 30 true hfuns w' (ask 4 Ret) = Some (w'', ts', Returned 24%Z) /\ mocks w'' 0 = mocks w' 0.
Proof. exact cleanup_not. Qed.
Print Assumptions C101_cleanup_refuted.

Example C101_case : armed start 0 = true /\ mocks start 0 = declares (map declared chain) /\
  exists w' ts, run 30 true (fun g => handed (funs g)) start test = Some (w', ts, Returned 24077121%Z) /\ map arguments (outer 0 ts) = [[4%Z]; [3%Z]; [3%Z]; [5%Z]] /\ check (mocks w' 0) = [] /\
  map (fun t => map arguments (inside t)) (outer 0 ts) = [[[3%Z]]; []; []; [[5%Z]]].
Proof.
  split; [reflexivity|]. split; [reflexivity|]. destruct (run 30 true (fun g => handed (funs g)) start test) as [[[w' ts] e]|] eqn:R; [|vm_compute in R; discriminate]. exists w', ts.
  vm_compute in R. injection R as <- <- <-. split; [reflexivity|]. split; [reflexivity|]. split; vm_compute; reflexivity.
Qed.
Example C101_method_case : flat_ending (run 5 true hfuns (mkworld (fun _ => declares (map declared [Expect Any []; Return (Member (fun this a => Ret (this * 100 + hd 0 a)%Z))])) (fun g => Nat.eqb g 1)) (Call 1 4%Z [5%Z] (fun r => match r with Some y => Ret y | None => Throw end))) = Some ([], Returned 405%Z).
Proof. vm_compute. reflexivity. Qed.
Example C101_off_case : option_map (fun r => (armed (fst (fst r)) 0, snd r)) (run 30 true hfuns (mkworld (fun _ => declares (map declared [Expect Any []; Return (Plain (fun _ => Leave))])) (fun g => Nat.eqb g 0)) (ask 3 Ret)) = Some (false, Left).
Proof. vm_compute. reflexivity. Qed.
Example C101_in_force_case : option_map (fun r => (armed (fst (fst r)) 0, snd r)) (run 30 true hfuns (mkworld (fun _ => declares (map declared [Expect Any []; Return (Plain (fun _ => Throw))])) (fun g => Nat.eqb g 0)) (ask 3 Ret)) = Some (true, Thrown).
Proof. vm_compute. reflexivity. Qed.
