(** Calls of mocked functions as tests declare them. *)
From Coq Require Import List Arith Bool ZArith Lia.
From Verif Require Import MockModel MockSpec MockProofs MockProofs3 MockcallModel MockcallSpec MockcallProofs.
Import ListNotations.

Definition convert {V A B} (h : A -> B) (k : mocker V A) : mocker V B := mkmocker (checkins k) (matchers k) (map (option_map h) (routines k)) (index k) (greed k).
Lemma removelast_map : forall A B (h : A -> B) l, removelast (map h l) = map h (removelast l).
Proof. intros A B h. induction l as [|x [|y l] IH]; [reflexivity|reflexivity|]. cbn [map removelast] in *. rewrite IH. reflexivity. Qed.
Lemma ensure_convert : forall V A B (h : A -> B) (k : mocker V A), ensure (convert h k) = convert h (ensure k).
Proof. intros V A B h [cs ms rs i g]. unfold ensure, convert. cbn. destruct cs; [|reflexivity]. unfold expect. cbn. rewrite map_app. reflexivity. Qed.
Lemma declare_convert : forall V (k : mocker V (given V)) d, declare (convert handed k) (declared d) = convert handed (declare k d).
Proof.
  intros V k [b ms|ms|i m|r|r|b]; unfold declared, declare; try rewrite ensure_convert.
  - unfold expect, convert. cbn. rewrite map_app. reflexivity.
  - reflexivity.
  - reflexivity.
  - unfold convert. cbn. rewrite map_app. cbn [map option_map]. do 2 f_equal. destruct (routines (ensure k)) as [|x l]; [reflexivity|]. rewrite <- removelast_map. reflexivity.
  - unfold convert. cbn. f_equal. rewrite !map_map. apply map_ext. intros [x|]; reflexivity.
  - reflexivity.
Qed.
Lemma declares_convert : forall V (ds : list (decl V (given V))), declares (map declared ds) = convert handed (declares ds).
Proof.
  intros V ds. unfold declares. change (@reset V (routine V)) with (@convert V _ _ (@handed V) reset). generalize (@reset V (given V)). induction ds as [|d ds IH]; intro k; [reflexivity|]. cbn [map fold_left]. rewrite declare_convert. apply IH.
Qed.
Lemma matches_convert : forall V A B (h : A -> B) ab (k : mocker V A) a, matches ab (convert h k) a = (convert h (fst (matches ab k a)), snd (matches ab k a)).
Proof. intros V A B h ab [cs ms rs i g] a. unfold matches, convert. cbn. destruct (sc_aborted _); [reflexivity|]. destruct (sc_offset _); reflexivity. Qed.
Lemma calls_convert : forall V A B (h : A -> B) ab l (k : mocker V A), fst (calls ab (convert h k) l) = convert h (fst (calls ab k l)).
Proof.
  intros V A B h ab. induction l as [|a l IH]; intro k; [reflexivity|]. cbn [calls]. rewrite matches_convert. destruct (matches ab k a) as [k1 o]. cbn [fst snd]. specialize (IH k1).
  destruct (calls ab (convert h k1) l) as [k2 os2]. destruct (calls ab k1 l) as [k3 os3]. exact IH.
Qed.
Lemma after_convert : forall V A B (h : A -> B) ab ts (k : mocker V A), after ab (convert h k) ts = convert h (after ab k ts).
Proof. intros. apply calls_convert. Qed.
Lemma invoke_handed : forall V (x : given V) this args, invoke (handed x) this args = Some (meaning x this args).
Proof. intros V [v|g|g] this args; reflexivity. Qed.

Section Declared.
Variable V : Type.
Variable ab : bool.
Variable own : nat -> given V.
Variable f : nat.
Variable ds : list (decl V (given V)).
Let hown := fun g => handed (own g).

Lemma dispatch_next : forall before a k' o, matches ab (after ab (declares (map declared ds)) before) a = (k', o) ->
  o = snd (matches ab (after ab (declares ds) before) a) /\
  forall this, match dispatch k' o with
  | None => next ab own f ds before this a = None
  | Some c => exists q, next ab own f ds before this a = Some q /\ invoke (called hown f c) this a = Some q
  end.
Proof.
  intros before a k' o M. unfold after in M. destruct (calls ab (declares (map declared ds)) (map arguments before)) as [k os] eqn:C. cbn [fst] in M.
  edestruct @dispatch_spec as [D1 D2]; [exact C|exact M|].
  assert (K : k = convert handed (after ab (declares ds) before)) by (rewrite <- after_convert, <- declares_convert; unfold after; rewrite C; reflexivity).
  rewrite K, matches_convert in M. injection M as _ O. split; [symmetry; exact O|]. intro this. unfold next. rewrite O.
  destruct (o_aborted o) eqn:Ab.
  - destruct D1 as [_ D1]. rewrite (D1 eq_refl). reflexivity.
  - rewrite (D2 eq_refl). eexists. split; [reflexivity|]. rewrite declares_convert. unfold convert. cbn [routines]. destruct (o_charged o) as [i|]; [|apply invoke_handed].
    rewrite nth_error_map. destruct (nth_error (routines (declares ds)) i) as [[r|]|]; cbn [option_map called]; apply invoke_handed.
Qed.
Variables (n : nat) (w : world V) (p : prog V) (w' : world V) (ts : list (tree V)) (e : ending V).
Hypothesis A : armed w f = true.
Hypothesis M : mocks w f = declares (map declared ds).
Hypothesis R : run n ab hown w p = Some (w', ts, e).

Lemma does_what : forall i t, nth_error (outer f ts) i = Some t -> exists this, t = Node f this (arguments t) (inside t) (ended t) /\
  match next ab own f ds (firstn i (outer f ts)) this (arguments t) with
  | None => inside t = [] /\ ended t = Left
  | Some q => exists m w1 w2, armed w1 f = false /\ run m ab hown w1 q = Some (w2, inside t, ended t)
  end.
Proof.
  intros i t T. destruct (around _ _ _ f _ _ _ _ _ _ R A) as [_ [_ [H _]]]. destruct (H i t T) as [this [E H1]]. exists this. split; [exact E|]. rewrite M in H1.
  destruct (matches ab (after ab (declares (map declared ds)) (firstn i (outer f ts))) (arguments t)) as [k' o] eqn:Q.
  destruct (dispatch_next _ _ _ _ Q) as [_ D]. specialize (D this). destruct (dispatch k' o) as [c|].
  - destruct D as [q [-> I]]. destruct H1 as [m [w1 [w2 [q' [A1 [I' G]]]]]]. rewrite I in I'. injection I' as <-. exists m, w1, w2. auto.
  - rewrite D. exact H1.
Qed.
Lemma off_when : armed w' f = false <-> exists i t this, nth_error (outer f ts) i = Some t /\ ended t = Left /\ next ab own f ds (firstn i (outer f ts)) this (arguments t) <> None.
Proof.
  destruct (around _ _ _ f _ _ _ _ _ _ R A) as [_ [_ [HA H]]]. rewrite H, M. split.
  - intros [i [t [T [L Q]]]]. destruct (HA i t T) as [this _]. exists i, t, this. split; [exact T|]. split; [exact L|].
    destruct (matches ab (after ab (declares (map declared ds)) (firstn i (outer f ts))) (arguments t)) as [k' o] eqn:Q1.
    destruct (dispatch_next _ _ _ _ Q1) as [_ D]. specialize (D this). destruct (dispatch k' o) as [c|]; [|contradiction]. destruct D as [q [-> _]]. discriminate.
  - intros [i [t [this [T [L Q]]]]]. exists i, t. split; [exact T|]. split; [exact L|].
    destruct (matches ab (after ab (declares (map declared ds)) (firstn i (outer f ts))) (arguments t)) as [k' o] eqn:Q1.
    destruct (dispatch_next _ _ _ _ Q1) as [_ D]. specialize (D this). destruct (dispatch k' o) as [c|]; [discriminate|]. rewrite D in Q. contradiction.
Qed.
Lemma counts : mocks w' f = after ab (declares (map declared ds)) (outer f ts) /\ check (mocks w' f) = check (fst (calls ab (declares ds) (map arguments (outer f ts)))).
Proof.
  destruct (around _ _ _ f _ _ _ _ _ _ R A) as [H _]. rewrite M in H. split; [exact H|]. rewrite H, declares_convert, after_convert. reflexivity.
Qed.
Lemma back : e <> Left -> armed w' f = true.
Proof. destruct (around _ _ _ f _ _ _ _ _ _ R A) as [_ [H _]]. exact H. Qed.
Lemma inner_own : forall t u, In t (outer f ts) -> among u (inside t) -> name u = f ->
  exists this m w1 w2, u = Node f this (arguments u) (inside u) (ended u) /\ run m ab hown w1 (meaning (own f) this (arguments u)) = Some (w2, inside u, ended u).
Proof.
  intros t u T U N. apply In_nth_error in T. destruct T as [i T]. destruct (does_what i t T) as [this [E D]].
  destruct (next ab own f ds (firstn i (outer f ts)) this (arguments t)) as [q|].
  - destruct D as [m [w1 [w2 [A1 G]]]]. destruct (quiet _ _ _ f _ _ _ _ _ _ G A1) as [_ [_ H]]. destruct (H u U N) as [m' [v1 [v2 [th [q' [_ [E' [I G']]]]]]]].
    unfold hown in I. rewrite invoke_handed in I. injection I as <-. exists th, m', v1, v2. auto.
  - destruct D as [D _]. rewrite D in U. destruct (among_nil _ _ U).
Qed.
End Declared.

(** ** Cases *)
Local Open Scope Z_scope.
(** the factorial, by itself *)
Definition fact : given Z := Plain (fun a => match a with [x] => if x <=? 1 then Ret 1 else Call 0 0 [x - 1] (fun r => match r with Some y => Ret (x * y) | None => Throw end) | _ => Throw end).
Definition funs (g : nat) : given Z := match g with O => fact | _ => Member (fun this a => Ret (this + fold_right Z.add 0 a)) end.
Definition hfuns := fun g => handed (funs g).
(** Once(4), then Twice(3) that answers 7 and Once(5) that answers by the function itself, one more *)
Definition chain : list (decl Z (given Z)) :=
  [Expect Once [Z.eqb 4]; Expect Twice [Z.eqb 3]; Return (Value 7); Expect Once [Z.eqb 5]; Return (Plain (fun a => Call 0 0 a (fun r => match r with Some y => Ret (y + 1) | None => Throw end)))].
Definition start : world Z := mkworld (fun _ => declares (map declared chain)) (fun g => Nat.eqb g 0).
Definition ask (x : Z) (rest : Z -> prog Z) : prog Z := Call 0%nat 0 [x] (fun r => match r with Some y => rest y | None => Throw end).
Definition test : prog Z := ask 4 (fun a => ask 3 (fun b => ask 3 (fun c => ask 5 (fun d => Ret (a * 1000000 + b * 10000 + c * 1000 + d))))).
Definition ran := run 30 true hfuns start test.
Definition flat_ending (r : option (world Z * list (tree Z) * ending Z)) := match r with Some (_, ts, e) => Some (map arguments (outer 0 ts), e) | None => None end.
Lemma ran_well : flat_ending ran = Some ([[4]; [3]; [3]; [5]], Returned 24077121).
Proof. vm_compute. reflexivity. Qed.
Lemma recursion_not : exists w p w' ts e, run 30 true hfuns w p = Some (w', ts, e) /\ armed w 0 = true /\ mocks w 0%nat = declares (map declared [Expect Once []]) /\
  (exists u, among u ts /\ name u = 0%nat /\ ~ In u (outer 0 ts)) /\ check (mocks w' 0%nat) = [].
Proof.
  destruct (run 30 true hfuns (mkworld (fun _ => declares (map declared [Expect Once []])) (fun g => Nat.eqb g 0)) (ask 2 Ret)) as [[[w' ts] e]|] eqn:R; [|vm_compute in R; discriminate].
  exists (mkworld (fun _ => declares (map declared [Expect Once []])) (fun g => Nat.eqb g 0)), (ask 2 Ret), w', ts, e. split; [exact R|]. split; [reflexivity|]. split; [reflexivity|].
  assert (T : ts = [Node 0 0 [2] [Node 0 0 [1] [] (Returned 1)] (Returned 2)]) by (vm_compute in R; injection R as _ <- _; reflexivity). split.
  - exists (Node 0 0 [1] [] (Returned 1)). rewrite T. split; [apply am_in, am_here|]. split; [reflexivity|]. cbn. intros [C|[]]. discriminate C.
  - assert (C : option_map (fun r => check (mocks (fst (fst r)) 0%nat)) (run 30 true hfuns (mkworld (fun _ => declares (map declared [Expect Once []])) (fun g => Nat.eqb g 0)) (ask 2 Ret)) = Some []) by (vm_compute; reflexivity).
    rewrite R in C. cbn in C. injection C as C. exact C.
Qed.
(** a check fails in the routine; the code that cleans up calls the function again *)
Lemma cleanup_not : exists w p w' ts w'' ts', run 30 true hfuns w p = Some (w', ts, Left) /\ armed w 0 = true /\ mocks w 0%nat = declares (map declared [Expect Any []; Return (Plain (fun a => match a with [3] => Leave | _ => Ret 7 end))]) /\
  run 30 true hfuns w' (ask 4 Ret) = Some (w'', ts', Returned 24) /\ mocks w'' 0%nat = mocks w' 0%nat.
Proof.
  set (ds := [Expect Any []; Return (Plain (fun a => match a with [3] => Leave | _ => Ret 7 end))]).
  set (w := mkworld (fun _ => declares (map declared ds)) (fun g => Nat.eqb g 0)).
  destruct (run 30 true hfuns w (ask 3 Ret)) as [[[w' ts] e]|] eqn:R; [|vm_compute in R; discriminate].
  assert (E : e = Left) by (vm_compute in R; injection R as _ _ <-; reflexivity). subst e.
  assert (X : armed w' 0 = false) by (vm_compute in R; injection R as <- _; reflexivity).
  destruct (run 30 true hfuns w' (ask 4 Ret)) as [[[w'' ts'] e']|] eqn:R2; [|vm_compute in R; injection R as <- _; vm_compute in R2; discriminate].
  assert (E' : e' = Returned 24) by (vm_compute in R; injection R as <- _; vm_compute in R2; injection R2 as _ _ <-; reflexivity). subst e'.
  exists w, (ask 3 Ret), w', ts, w'', ts'. split; [exact R|]. split; [reflexivity|]. split; [reflexivity|]. split; [exact R2|].
  exact (proj1 (quiet _ _ _ 0%nat _ _ _ _ _ _ R2 X)).
Qed.
