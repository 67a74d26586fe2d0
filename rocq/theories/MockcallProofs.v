(** Proofs about calls of mocked functions. *)
From Coq Require Import List Arith Bool ZArith Lia.
From Verif Require Import MockModel MockSpec MockProofs MockcallModel MockcallSpec.
Import ListNotations.

Section Runs.
Variable V : Type.
Variable ab : bool.
Variable own : nat -> routine V.
Implicit Types (w : world V) (p q : prog V) (t : tree V) (ts : list (tree V)) (e : ending V).
Notation go n := (run n ab own).

Definition entry (n : nat) w (g : nat) (this : V) (args : list V) w1 ts1 e1 : Prop :=
  (armed w g = true /\ exists k o, matches ab (mocks w g) args = (k, o) /\ dispatch k o = None /\ w1 = mkworld (put (mocks w) g k) (armed w) /\ ts1 = [] /\ e1 = Left) \/
  (armed w g = true /\ exists k o c q w2, matches ab (mocks w g) args = (k, o) /\ dispatch k o = Some c /\ invoke (called own g c) this args = Some q /\
     go n (mkworld (put (mocks w) g k) (put (armed w) g false)) q = Some (w2, ts1, e1) /\
     ((e1 = Left /\ w1 = w2) \/ (e1 <> Left /\ w1 = mkworld (mocks w2) (put (armed w2) g true)))) \/
  (armed w g = false /\ exists q, invoke (own g) this args = Some q /\ go n w q = Some (w1, ts1, e1)).
Lemma run_call : forall n w g this args rest w' ts e, go (S n) w (Call g this args rest) = Some (w', ts, e) ->
  exists w1 ts1 e1, entry n w g this args w1 ts1 e1 /\
  ((e1 = Left /\ w' = w1 /\ ts = [Node g this args ts1 Left] /\ e = Left) \/
   (e1 <> Left /\ exists ts', go n w1 (rest (result e1)) = Some (w', ts', e) /\ ts = Node g this args ts1 e1 :: ts')).
Proof.
  intros n w g this args rest w' ts e H. cbn [run] in H. unfold entry.
  destruct (armed w g) eqn:A.
  - destruct (matches ab (mocks w g) args) as [k o] eqn:M. cbn [mocks armed] in H. destruct (dispatch k o) as [c|] eqn:D.
    + destruct (invoke (called own g c) this args) as [q|] eqn:I; [|discriminate].
      destruct (go n {| mocks := put (mocks w) g k; armed := put (armed w) g false |} q) as [[[w2 ts1] e1]|] eqn:R; [|discriminate].
      destruct e1 as [v| |].
      * eexists _, ts1, (Returned v). split.
        { right; left. split; [reflexivity|]. exists k, o, c, q, w2. repeat (split; [eassumption || reflexivity|]). right. split; [discriminate|reflexivity]. }
        right. split; [discriminate|]. destruct (go n _ (rest (Some v))) as [[[w3 ts3] e3]|] eqn:R2; [|discriminate]. injection H as <- <- <-. exists ts3. split; [exact R2|reflexivity].
      * eexists _, ts1, Thrown. split.
        { right; left. split; [reflexivity|]. exists k, o, c, q, w2. repeat (split; [eassumption || reflexivity|]). right. split; [discriminate|reflexivity]. }
        right. split; [discriminate|]. destruct (go n _ (rest None)) as [[[w3 ts3] e3]|] eqn:R2; [|discriminate]. injection H as <- <- <-. exists ts3. split; [exact R2|reflexivity].
      * injection H as <- <- <-. exists w2, ts1, Left. split.
        { right; left. split; [reflexivity|]. exists k, o, c, q, w2. repeat (split; [eassumption || reflexivity|]). left. split; reflexivity. }
        left. auto.
    + injection H as <- <- <-. eexists _, [], Left. split; [left; split; [reflexivity|]; exists k, o; auto 10|]. left. auto.
  - destruct (invoke (own g) this args) as [q|] eqn:I; [|discriminate]. destruct (go n w q) as [[[w2 ts1] e1]|] eqn:R; [|discriminate].
    exists w2, ts1, e1. split; [right; right; split; [reflexivity|]; exists q; auto|].
    destruct e1 as [v| |].
    + right. split; [discriminate|]. destruct (go n w2 (rest (Some v))) as [[[w3 ts3] e3]|] eqn:R2; [|discriminate]. injection H as <- <- <-. exists ts3. split; [exact R2|reflexivity].
    + right. split; [discriminate|]. destruct (go n w2 (rest None)) as [[[w3 ts3] e3]|] eqn:R2; [|discriminate]. injection H as <- <- <-. exists ts3. split; [exact R2|reflexivity].
    + injection H as <- <- <-. left. auto.
Qed.
Lemma goes_on : forall n w g this args rest w' ts e, go n w (Call g this args rest) = Some (w', ts, e) ->
  exists i e1 ts', ts = Node g this args i e1 :: ts' /\ ((e1 = Left /\ ts' = [] /\ e = Left) \/ (e1 <> Left /\ exists m w1, go m w1 (rest (result e1)) = Some (w', ts', e))).
Proof.
  intros [|n] w g this args rest w' ts e H; [discriminate|]. destruct (run_call _ _ _ _ _ _ _ _ _ H) as [w1 [ts1 [e1 [_ [[-> [-> [-> ->]]]|[L [ts' [R ->]]]]]]]].
  - exists ts1, Left, []. auto.
  - exists ts1, e1, ts'. split; [reflexivity|]. right. eauto.
Qed.
Lemma run_end : forall n w p w' ts e, go n w p = Some (w', ts, e) -> (exists g this args rest, p = Call g this args rest) \/ (w' = w /\ ts = [] /\ (p = Leave <-> e = Left)).
Proof.
  intros [|n] w p w' ts e H; [discriminate|]. destruct p as [v| | |g this args rest]; [| | |left; eauto]; right; cbn in H; injection H as <- <- <-;
    (split; [reflexivity|split; [reflexivity|split; congruence]]).
Qed.
Lemma run_pos : forall n w p r, go n w p = Some r -> exists m, n = S m.
Proof. intros [|n] w p r H; [discriminate|eauto]. Qed.

Lemma put_same : forall A (t : nat -> A) f a, put t f a f = a.
Proof. intros. unfold put. rewrite Nat.eqb_refl. reflexivity. Qed.
Lemma put_other : forall A (t : nat -> A) f g a, g <> f -> put t f a g = t g.
Proof. intros. unfold put. apply Nat.eqb_neq in H. rewrite H. reflexivity. Qed.

(** ** While its own routine runs *)
Definition by_itself f t : Prop := exists n w1 w2 this q, armed w1 f = false /\ t = Node f this (arguments t) (inside t) (ended t) /\ invoke (own f) this (arguments t) = Some q /\ go n w1 q = Some (w2, inside t, ended t).
Lemma among_nil : forall t, ~ among t [].
Proof. intros t H. inversion H. Qed.
Lemma quiet : forall f n w p w' ts e, go n w p = Some (w', ts, e) -> armed w f = false ->
  mocks w' f = mocks w f /\ armed w' f = false /\ forall t, among t ts -> name t = f -> by_itself f t.
Proof.
  intros f. induction n as [|n IH]; intros w p w' ts e H A; [discriminate|].
  destruct (run_end _ _ _ _ _ _ H) as [[g [this [args [rest ->]]]]|[-> [-> _]]].
  2:{ split; [reflexivity|]. split; [exact A|]. intros t T. destruct (among_nil _ T). }
  destruct (run_call _ _ _ _ _ _ _ _ _ H) as [w1 [ts1 [e1 [E R]]]].
  assert (X : mocks w1 f = mocks w f /\ armed w1 f = false /\ (forall t, among t ts1 -> name t = f -> by_itself f t) /\ (g = f -> by_itself f (Node g this args ts1 e1))).
  { destruct E as [[B [k [o [M [D [-> [-> ->]]]]]]]|[[B [k [o [c [q [w2 [M [D [I [G W]]]]]]]]]]|[B [q [I G]]]]].
    - assert (N : f <> g) by (intros ->; rewrite A in B; discriminate). cbn [mocks armed]. rewrite (put_other _ _ _ _ _ N). split; [reflexivity|]. split; [exact A|].
      split; [intros t T; destruct (among_nil _ T)|]. intros ->. contradiction.
    - assert (N : f <> g) by (intros ->; rewrite A in B; discriminate).
      destruct (IH _ _ _ _ _ G) as [M2 [A2 T2]]; [cbn [armed]; rewrite (put_other _ _ _ _ _ N); exact A|]. cbn [mocks] in M2. rewrite (put_other _ _ _ _ _ N) in M2.
      destruct W as [[-> ->]|[L ->]]; cbn [mocks armed]; [|rewrite (put_other _ _ _ _ _ N)]; (split; [exact M2|split; [exact A2|split; [exact T2|intros ->; contradiction]]]).
    - destruct (IH _ _ _ _ _ G A) as [M2 [A2 T2]]. split; [exact M2|]. split; [exact A2|]. split; [exact T2|]. intros <-. exists n, w, w1, this, q. cbn [arguments inside ended]. auto. }
  destruct X as [M1 [A1 [T1 S1]]].
  destruct R as [[-> [-> [-> ->]]]|[L [ts' [R ->]]]].
  - split; [exact M1|]. split; [exact A1|]. intros t T. inversion T; subst; intro NT; [apply S1; exact NT|apply T1; assumption|exfalso; eapply among_nil; eassumption].
  - destruct (IH _ _ _ _ _ R A1) as [M2 [A2 T2]]. split; [rewrite M2; exact M1|]. split; [exact A2|]. intros t T. inversion T; subst; intro NT; [apply S1; exact NT|apply T1; assumption|apply T2; assumption].
Qed.

(** ** Outside of it *)
Lemma outer_cons : forall f g this args i e ts, outer f (Node g this args i e :: ts) = (if g =? f then [Node g this args i e] else outer f i) ++ outer f ts.
Proof. intros. unfold outer. cbn [flat_map outermost]. destruct (g =? f); reflexivity. Qed.
Lemma calls_app : forall R (k : mocker V R) xs ys, fst (calls ab k (xs ++ ys)) = fst (calls ab (fst (calls ab k xs)) ys).
Proof.
  intros R k xs. revert k. induction xs as [|x xs IH]; intros k ys; [reflexivity|]. cbn [app calls]. destruct (matches ab k x) as [k1 o]. specialize (IH k1 ys).
  destruct (calls ab k1 (xs ++ ys)) as [k2 os]. destruct (calls ab k1 xs) as [k3 os3]. cbn [fst] in IH |- *. exact IH.
Qed.
Lemma after_app : forall R (k : mocker V R) xs ys, after ab k (xs ++ ys) = after ab (after ab k xs) ys.
Proof. intros. unfold after. rewrite map_app. apply calls_app. Qed.
Lemma after_one : forall R (k : mocker V R) t, after ab k [t] = fst (matches ab k (arguments t)).
Proof. intros. unfold after. cbn [map calls]. destruct (matches ab k (arguments t)) as [k1 o]. reflexivity. Qed.

Definition answered f (k : mocker V (routine V)) t : Prop :=
  exists this, t = Node f this (arguments t) (inside t) (ended t) /\
  let (k', o) := matches ab k (arguments t) in
  match dispatch k' o with
  | None => inside t = [] /\ ended t = Left
  | Some c => exists n w1 w2 q, armed w1 f = false /\ invoke (called own f c) this (arguments t) = Some q /\ go n w1 q = Some (w2, inside t, ended t)
  end.
Definition left_in (k : mocker V (routine V)) t : Prop := ended t = Left /\ let (k', o) := matches ab k (arguments t) in dispatch k' o <> None.
Lemma around : forall f n w p w' ts e, go n w p = Some (w', ts, e) -> armed w f = true ->
  mocks w' f = after ab (mocks w f) (outer f ts) /\ (e <> Left -> armed w' f = true) /\
  (forall i t, nth_error (outer f ts) i = Some t -> answered f (after ab (mocks w f) (firstn i (outer f ts))) t) /\
  (armed w' f = false <-> exists i t, nth_error (outer f ts) i = Some t /\ left_in (after ab (mocks w f) (firstn i (outer f ts))) t).
Proof.
  intros f. induction n as [|n IH]; intros w p w' ts e H A; [discriminate|].
  destruct (run_end _ _ _ _ _ _ H) as [[g [this [args [rest ->]]]]|[-> [-> _]]].
  2:{ split; [reflexivity|]. split; [intros _; exact A|]. split; [intros [|i] t T; discriminate T|]. split; [rewrite A; discriminate|]. intros [[|i] [t [T _]]]; discriminate T. }
  destruct (run_call _ _ _ _ _ _ _ _ _ H) as [w1 [ts1 [e1 [E R]]]]. clear H.
  set (part := if g =? f then [Node g this args ts1 e1] else outer f ts1).
  assert (X : mocks w1 f = after ab (mocks w f) part /\ (e1 <> Left -> armed w1 f = true) /\
    (forall i t, nth_error part i = Some t -> answered f (after ab (mocks w f) (firstn i part)) t) /\
    (armed w1 f = false <-> exists i t, nth_error part i = Some t /\ left_in (after ab (mocks w f) (firstn i part)) t)).
  { unfold part. destruct (Nat.eqb_spec g f) as [->|N].
    - rewrite after_one. cbn [arguments].
      destruct E as [[B [k [o [M [D [-> [-> ->]]]]]]]|[[B [k [o [c [q [w2 [M [D [I [G W]]]]]]]]]]|[B [q [I G]]]]].
      + cbn [mocks armed]. rewrite M, put_same. split; [reflexivity|]. split; [intros _; exact A|]. split.
        * intros [|[|i]] t T; [|discriminate|discriminate]. injection T as <-. exists this. split; [reflexivity|]. cbn [firstn arguments inside ended]. unfold after. cbn [map calls fst]. rewrite M, D. auto.
        * rewrite A. split; [discriminate|]. intros [[|[|i]] [t [T L]]]; [|discriminate|discriminate]. injection T as <-. destruct L as [_ L]. cbn [firstn arguments] in L. unfold after in L. cbn [map calls fst] in L. rewrite M in L. contradiction.
      + destruct (quiet f _ _ _ _ _ _ G) as [M2 [A2 _]]; [cbn [armed]; apply put_same|]. cbn [mocks] in M2. rewrite put_same in M2.
        assert (MW : mocks w1 f = k) by (destruct W as [[_ ->]|[_ ->]]; exact M2). rewrite MW, M. split; [reflexivity|]. split.
        { intro L. destruct W as [[L2 _]|[_ ->]]; [contradiction|]. cbn [armed]. apply put_same. }
        split.
        * intros [|[|i]] t T; [|discriminate|discriminate]. injection T as <-. exists this. split; [reflexivity|]. cbn [firstn arguments inside ended]. unfold after. cbn [map calls fst]. rewrite M, D.
          eexists n, _, w2, q. split; [|split; [exact I|exact G]]. cbn [armed]. apply put_same.
        * split.
          { intro F. exists 0, (Node f this args ts1 e1). split; [reflexivity|]. split.
            - cbn [ended]. destruct W as [[L _]|[_ ->]]; [exact L|]. cbn [armed] in F. rewrite put_same in F. discriminate.
            - cbn [firstn arguments]. unfold after. cbn [map calls fst]. rewrite M, D. discriminate. }
          { intros [[|[|i]] [t [T [L _]]]]; [|discriminate|discriminate]. injection T as <-. cbn [ended] in L. destruct W as [[_ ->]|[L2 _]]; [exact A2|contradiction]. }
      + rewrite A in B. discriminate.
    - assert (N2 : f <> g) by congruence.
      destruct E as [[B [k [o [M [D [-> [-> ->]]]]]]]|[[B [k [o [c [q [w2 [M [D [I [G W]]]]]]]]]]|[B [q [I G]]]]].
      + cbn [mocks armed]. rewrite (put_other _ _ _ _ _ N2). split; [reflexivity|]. split; [intros _; exact A|]. split; [intros [|i] t T; discriminate T|]. rewrite A. split; [discriminate|]. intros [[|i] [t [T _]]]; discriminate T.
      + destruct (IH _ _ _ _ _ G) as [M2 [A2 [T2 L2]]]; [cbn [armed]; rewrite (put_other _ _ _ _ _ N2); exact A|]. cbn [mocks] in M2, T2, L2. rewrite (put_other _ _ _ _ _ N2) in M2, T2, L2.
        destruct W as [[-> ->]|[L ->]]; [auto|]. cbn [mocks armed]. rewrite (put_other _ _ _ _ _ N2). auto.
      + exact (IH _ _ _ _ _ G A). }
  destruct X as [M1 [A1 [T1 L1]]].
  destruct R as [[-> [-> [-> ->]]]|[L [ts' [R ->]]]].
  - rewrite outer_cons. change (outer f []) with (@nil (tree V)). rewrite app_nil_r. fold part. split; [exact M1|]. split; [intro C; contradiction|]. auto.
  - rewrite outer_cons. fold part. specialize (A1 L). destruct (IH _ _ _ _ _ R A1) as [M2 [A2 [T2 L2]]].
    assert (NL : ~ exists i t, nth_error part i = Some t /\ left_in (after ab (mocks w f) (firstn i part)) t) by (intro C; apply L1 in C; rewrite A1 in C; discriminate).
    assert (FA : forall i, i < length part -> firstn i (part ++ outer f ts') = firstn i part).
    { intros i Li. rewrite firstn_app. replace (i - length part) with 0 by lia. rewrite app_nil_r. reflexivity. }
    assert (FB : forall i, length part <= i -> after ab (mocks w f) (firstn i (part ++ outer f ts')) = after ab (mocks w1 f) (firstn (i - length part) (outer f ts'))).
    { intros i Li. rewrite firstn_app, firstn_all2 by lia. rewrite after_app, <- M1. reflexivity. }
    split; [rewrite after_app, <- M1; exact M2|]. split; [exact A2|]. split.
    + intros i t T. destruct (Nat.lt_ge_cases i (length part)) as [Li|Li].
      * rewrite nth_error_app1 in T by exact Li. rewrite FA by exact Li. exact (T1 i t T).
      * rewrite nth_error_app2 in T by exact Li. rewrite FB by exact Li. exact (T2 _ t T).
    + rewrite L2. split.
      * intros [i [t [T Q]]]. exists (length part + i), t. rewrite nth_error_app2, FB by lia. replace (length part + i - length part) with i by lia. auto.
      * intros [i [t [T Q]]]. destruct (Nat.lt_ge_cases i (length part)) as [Li|Li].
        { rewrite nth_error_app1 in T by exact Li. rewrite FA in Q by exact Li. destruct NL. eauto. }
        { rewrite nth_error_app2 in T by exact Li. rewrite FB in Q by exact Li. eauto. }
Qed.

(** ** More fuel *)
Lemma more : forall n w p r, go n w p = Some r -> forall m, n <= m -> go m w p = Some r.
Proof.
  induction n as [|n IH]; intros w p r H m Lm; [discriminate|]. destruct m as [|m]; [lia|]. assert (Lm' : n <= m) by lia. cbn [run] in *.
  destruct p as [v| | |g this args rest]; try exact H. destruct (armed w g).
  - destruct (matches ab (mocks w g) args) as [k o]. destruct (dispatch k o) as [c|]; [|exact H]. destruct (invoke (called own g c) this args) as [q|]; [|discriminate].
    destruct (go n _ q) as [[[w2 ts1] e1]|] eqn:R; [|discriminate]. rewrite (IH _ _ _ R m Lm').
    destruct e1 as [v| |]; [| |exact H]; (match goal with |- context [rest ?x] => destruct (go n _ (rest x)) as [[[w3 ts3] e3]|] eqn:R2; [|discriminate]; rewrite (IH _ _ _ R2 m Lm') end; exact H).
  - destruct (invoke (own g) this args) as [q|]; [|discriminate]. destruct (go n w q) as [[[w2 ts1] e1]|] eqn:R; [|discriminate]. rewrite (IH _ _ _ R m Lm').
    destruct e1 as [v| |]; [| |exact H]; (match goal with |- context [rest ?x] => destruct (go n _ (rest x)) as [[[w3 ts3] e3]|] eqn:R2; [|discriminate]; rewrite (IH _ _ _ R2 m Lm') end; exact H).
Qed.
End Runs.
