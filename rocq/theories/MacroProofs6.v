(** Proofs about the list macros: reading again many times. *)
From Coq Require Import List NArith Bool Arith Lia.
From Verif Require Import Base MacroModel MacroProofs MacroProofs2 MacroProofs3 MacroProofs4.
Import ListNotations.
Local Open Scope N_scope.
Local Arguments lookup : simpl never.
Local Arguments bytes_eqb : simpl never.

Notation Closed := (closed table).
Lemma closed_app : forall un a a' b b', Closed un a a' -> Closed un b b' -> Closed un (a ++ b) (a' ++ b').
Proof.
  intros un a a' b b' Ha Hb off rest out D HR. rewrite map_app, <- !app_assoc. apply Ha; [|apply Hb; assumption].
  intros n Hn. destruct (D n Hn) as [H1 H2]. split; [exact H1|]. rewrite ends_app, ends_toks. exact H2.
Qed.
Lemma closed_calm : forall un a, Forall (calm table) a -> Closed un a a.
Proof. intros un a C off rest out _ HR. apply exp_part; assumption. Qed.
Lemma closed_sub : forall un un' a b, (forall n, In n un -> In n un') -> Closed un a b -> Closed un' a b.
Proof. intros un un' a b H C off rest out D HR. apply C; [|exact HR]. intros n Hn. apply D. apply H. exact Hn. Qed.

Definition va : bytes := Eval vm_compute in str "__VA_ARGS__".
Definition twice (e : bytes) : list tok := [TId e false; TLp; TId e false; TLp; TId va false; TRp; TRp].

Lemma quiet_sub : forall un un' ts, (forall n, In n un -> In n un') -> Forall (quiet un) ts -> Forall (quiet un') ts.
Proof. intros un un' ts H. apply Forall_impl. intros [n [|]|x| | | |x] Q; auto. destruct Q; [left|right]; auto. Qed.
Lemma quiet_called : forall un e A, In e un -> Forall (quiet un) A -> Forall (quiet un) (called e A).
Proof. intros un e A I H. constructor; [right; exact I|]. constructor; [exact Logic.I|]. apply Forall_app. split; [exact H|]. repeat constructor. Qed.
Lemma walk_called : forall e A, walk true 0 A = Some 0%nat -> walk true 0 (called e A) = Some 0%nat.
Proof. intros e A H. cbn. rewrite (walk_app _ _ _ _ _ (walk_up_true _ _ 1 H)). reflexivity. Qed.
Lemma one_arg : forall un off rest A, (forall n, In n un -> has n off = false /\ has n (ends rest) = false) -> walk true 0 A = Some 0%nat -> Forall (quiet un) A ->
  collect table off true 0 0 [] (map Tok A ++ Tok TRp :: rest) = Some ([A], rest).
Proof. intros un off rest A D W Q. rewrite (collect_pieces un off rest D) by assumption. cbn [grp]. rewrite commas_pieces. reflexivity. Qed.

Section Eval.
Variable UL : list bytes.
Variable S : nat -> list tok.
Hypothesis S_step : forall j, Closed UL (S j) (S (Datatypes.S j)).
Hypothesis S_walk : forall j, walk true 0 (S j) = Some 0%nat.
Hypothesis S_quiet : forall j, Forall (quiet UL) (S j).

(** a call of [e] reads [c] times more than its argument was read *)
Definition reads (e : bytes) (Ne : list bytes) (c : nat) : Prop :=
  forall j A off rest out, (forall n, In n (Ne ++ UL) -> has n off = false /\ has n (ends rest) = false) ->
  walk true 0 A = Some 0%nat -> Forall (quiet (Ne ++ UL)) A -> Exp table (off ++ ends rest) (map Tok A) (S j) -> Exp table off rest out ->
  Exp table off (map Tok (called e A) ++ rest) (S (j + c)%nat ++ out).

Lemma off_rest : forall un off rest m, (forall n, In n un -> has n off = false /\ has n (ends rest) = false) -> ~ In m un -> forall n, In n un -> has n off = false /\ has n (ends (End m :: rest)) = false.
Proof.
  intros un off rest m D Hm n Hn. destruct (D n Hn) as [H1 H2]. split; [exact H1|]. cbn [ends]. unfold has in *. cbn [existsb]. rewrite H2, orb_false_r.
  destruct (bytes_eqb n m) eqn:B; [|reflexivity]. apply bytes_eqb_eq in B. subst. contradiction.
Qed.
Lemma off_all : forall un off rest, (forall n, In n un -> has n off = false /\ has n (ends rest) = false) -> forall n, In n un -> has n (off ++ ends rest) = false /\ has n (ends []) = false.
Proof. intros un off rest D n Hn. destruct (D n Hn) as [H1 H2]. rewrite has_app, H1, H2. auto. Qed.

Lemma reads_one : forall e, lookup table e = Some (mkmacro (Some []) true [TId va false]) -> ~ In e UL -> reads e [e] 1.
Proof.
  intros e L N j A off rest out D W Q HA HR. cbn [called map app]. rewrite map_app, <- app_assoc. cbn [map app].
  eapply E_call with (ps := []) (r1 := map Tok A ++ Tok TRp :: rest) (args := [A]) (r2 := rest) (qs := [va]) (acts := [A]) (full := [S j]) (b := S j); [exact L| |reflexivity|reflexivity| |reflexivity| | |].
  - unfold disabled. cbn [ends]. rewrite ends_app, ends_toks. cbn [app ends]. destruct (D e (or_introl eq_refl)) as [-> ->]. reflexivity.
  - eapply one_arg; eauto.
  - apply Es_cons; [reflexivity|exact HA|apply Es_nil].
  - reflexivity.
  - replace (j + 1)%nat with (Datatypes.S j) by lia. apply S_step; [|apply E_end; exact HR].
    apply off_rest; [|exact N]. intros n Hn. apply D. right. exact Hn.
Qed.
Lemma reads_twice : forall m e Ne c, lookup table m = Some (mkmacro (Some []) true (twice e)) -> bytes_eqb e va = false -> In e Ne -> ~ In m (Ne ++ UL) ->
  reads e Ne c -> reads m (m :: Ne) (1 + 2 * c).
Proof.
  intros m e Ne c L E I N R j A off rest out D W Q HA HR. cbn [called map app]. rewrite map_app, <- app_assoc. cbn [map app].
  assert (D' : forall n, In n (Ne ++ UL) -> has n off = false /\ has n (ends (End m :: rest)) = false) by (apply off_rest; [intros n Hn; apply D; right; exact Hn|exact N]).
  assert (Sub : forall x, In x UL -> In x (Ne ++ UL)) by (intros x Hx; apply in_or_app; right; exact Hx).
  assert (P : place [va] [S j] (TId e false) = [TId e false]) by (unfold place; cbn [actual]; rewrite E; reflexivity).
  eapply E_call with (ps := []) (r1 := map Tok A ++ Tok TRp :: rest) (args := [A]) (r2 := rest) (qs := [va]) (acts := [A]) (full := [S j]) (b := called e (called e (S j))); [exact L| |reflexivity|reflexivity| |reflexivity| | |].
  - unfold disabled. cbn [ends]. rewrite ends_app, ends_toks. cbn [app ends]. destruct (D m (or_introl eq_refl)) as [-> ->]. reflexivity.
  - eapply one_arg; eauto.
  - apply Es_cons; [|exact HA|apply Es_nil]. cbn [body]. unfold twice. cbn [plain_use pasting]. rewrite E. reflexivity.
  - cbn [body]. unfold twice. cbn [substitute pasting]. rewrite P. change (place [va] [S j] (TId va false)) with (S j). cbn [place actual option_map app].
    unfold called. cbn [app]. rewrite <- app_assoc. reflexivity.
  - replace (j + (1 + 2 * c))%nat with (j + 1 + c + c)%nat by lia. apply R.
    + exact D'.
    + apply walk_called. apply S_walk.
    + apply quiet_called; [apply in_or_app; left; exact I|]. eapply quiet_sub; [exact Sub|apply S_quiet].
    + rewrite <- (app_nil_r (map Tok (called e (S j)))), <- (app_nil_r (S (j + 1 + c)%nat)). apply R.
      * apply off_all. exact D'.
      * apply S_walk.
      * eapply quiet_sub; [exact Sub|apply S_quiet].
      * cbn [ends]. rewrite app_nil_r. rewrite <- (app_nil_r (map Tok (S j))), <- (app_nil_r (S (j + 1)%nat)). replace (j + 1)%nat with (Datatypes.S j) by lia.
        apply S_step; [|apply E_nil]. apply (off_all UL off (End m :: rest)). intros n Hn. apply D'. apply Sub. exact Hn.
      * apply E_nil.
    + apply E_end. exact HR.
Qed.

Definition ev1 : bytes := Eval vm_compute in str "_H2PP_EVAL_1".
Definition ev2 : bytes := Eval vm_compute in str "_H2PP_EVAL_2".
Definition ev4 : bytes := Eval vm_compute in str "_H2PP_EVAL_4".
Definition ev8 : bytes := Eval vm_compute in str "_H2PP_EVAL_8".
Definition ev16 : bytes := Eval vm_compute in str "_H2PP_EVAL_16".
Definition ev32 : bytes := Eval vm_compute in str "_H2PP_EVAL_32".
Definition ev64 : bytes := Eval vm_compute in str "_H2PP_EVAL_64".
Definition ev128 : bytes := Eval vm_compute in str "_H2PP_EVAL_128".
Definition ev : bytes := Eval vm_compute in str "H2PP_EVAL".
Definition evals : list bytes := [ev128; ev64; ev32; ev16; ev8; ev4; ev2; ev1].
Hypothesis UL_evals : forallb (fun n => negb (has n UL)) (ev :: evals) = true.

Lemma not_UL : forall n, In n (ev :: evals) -> ~ In n UL.
Proof.
  intros n Hn HU. pose proof UL_evals as F. rewrite forallb_forall in F. specialize (F n Hn). apply has_in in HU. rewrite HU in F. discriminate.
Qed.
Lemma not_app : forall m Ne, has m Ne = false -> In m (ev :: evals) -> ~ In m (Ne ++ UL).
Proof.
  intros m Ne H Hm I. apply in_app_or in I. destruct I as [I|I]; [apply has_in in I; congruence|]. revert I. apply not_UL. exact Hm.
Qed.
Ltac among := vm_compute; tauto.
Lemma reads128 : reads ev128 evals 255.
Proof.
  assert (R1 : reads ev1 [ev1] 1) by (apply reads_one; [vm_compute; reflexivity|apply not_UL; among]).
  assert (R2 : reads ev2 [ev2; ev1] 3) by (refine (reads_twice ev2 ev1 [ev1] 1 _ _ _ _ R1); [vm_compute; reflexivity|vm_compute; reflexivity|among|apply not_app; [vm_compute; reflexivity|among]]).
  assert (R4 : reads ev4 [ev4; ev2; ev1] 7) by (refine (reads_twice ev4 ev2 _ 3 _ _ _ _ R2); [vm_compute; reflexivity|vm_compute; reflexivity|among|apply not_app; [vm_compute; reflexivity|among]]).
  assert (R8 : reads ev8 [ev8; ev4; ev2; ev1] 15) by (refine (reads_twice ev8 ev4 _ 7 _ _ _ _ R4); [vm_compute; reflexivity|vm_compute; reflexivity|among|apply not_app; [vm_compute; reflexivity|among]]).
  assert (R16 : reads ev16 [ev16; ev8; ev4; ev2; ev1] 31) by (refine (reads_twice ev16 ev8 _ 15 _ _ _ _ R8); [vm_compute; reflexivity|vm_compute; reflexivity|among|apply not_app; [vm_compute; reflexivity|among]]).
  assert (R32 : reads ev32 [ev32; ev16; ev8; ev4; ev2; ev1] 63) by (refine (reads_twice ev32 ev16 _ 31 _ _ _ _ R16); [vm_compute; reflexivity|vm_compute; reflexivity|among|apply not_app; [vm_compute; reflexivity|among]]).
  assert (R64 : reads ev64 [ev64; ev32; ev16; ev8; ev4; ev2; ev1] 127) by (refine (reads_twice ev64 ev32 _ 63 _ _ _ _ R32); [vm_compute; reflexivity|vm_compute; reflexivity|among|apply not_app; [vm_compute; reflexivity|among]]).
  refine (reads_twice ev128 ev64 _ 127 _ _ _ _ R64); [vm_compute; reflexivity|vm_compute; reflexivity|among|apply not_app; [vm_compute; reflexivity|among]].
Qed.
(** the whole macro, on the first of the texts *)
Definition eval_names : list bytes := ev :: evals ++ UL.
Lemma eval_reads : Closed eval_names (called ev (S 0%nat)) (S 257%nat).
Proof.
  intros off rest out D HR.
  assert (D' : forall n, In n (evals ++ UL) -> has n off = false /\ has n (ends (End ev :: rest)) = false).
  { apply off_rest; [intros n Hn; apply D; right; exact Hn|]. apply not_app; [vm_compute; reflexivity|left; reflexivity]. }
  assert (Sub : forall x, In x UL -> In x (evals ++ UL)) by (intros x Hx; apply in_or_app; right; exact Hx).
  assert (SQ : forall j, Forall (quiet (evals ++ UL)) (S j)) by (intro j; eapply quiet_sub; [exact Sub|apply S_quiet]).
  cbn [called map app]. rewrite map_app, <- app_assoc. cbn [map app].
  eapply E_call with (ps := []) (r1 := map Tok (S 0%nat) ++ Tok TRp :: rest) (args := [S 0%nat]) (r2 := rest) (qs := [va]) (acts := [S 0%nat]) (full := [S 1%nat]) (b := called ev128 (S 1%nat))
    (m := mkmacro (Some []) true [TId ev128 false; TLp; TId va false; TRp]); [vm_compute; reflexivity| |reflexivity|reflexivity| |reflexivity| | |].
  - unfold disabled. cbn [ends]. rewrite ends_app, ends_toks. cbn [app ends]. destruct (D ev (or_introl eq_refl)) as [-> ->]. reflexivity.
  - eapply one_arg; [|apply S_walk|apply S_quiet]. intros n Hn. apply D. right. apply Sub. exact Hn.
  - apply Es_cons; [vm_compute; reflexivity| |apply Es_nil].
    rewrite <- (app_nil_r (map Tok (S 0%nat))), <- (app_nil_r (S 1%nat)). apply S_step; [|apply E_nil].
    apply off_all. intros n Hn. apply D. right. apply Sub. exact Hn.
  - reflexivity.
  - change 257%nat with (2 + 255)%nat. apply reads128; [exact D'|apply S_walk|apply SQ| |apply E_end; exact HR].
    rewrite <- (app_nil_r (map Tok (S 1%nat))), <- (app_nil_r (S 2%nat)). apply S_step; [|apply E_nil].
    apply off_all. intros n Hn. apply D'. apply Sub. exact Hn.
Qed.
End Eval.
