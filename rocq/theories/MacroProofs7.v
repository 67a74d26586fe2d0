(** Proofs about the list macros: what loops are made of. *)
From Coq Require Import List NArith Bool Arith Lia.
From Verif Require Import Base MacroModel MacroProofs MacroProofs2 MacroProofs3 MacroProofs4 MacroProofs5 MacroProofs6.
Import ListNotations.
Local Open Scope N_scope.
Local Arguments lookup : simpl never.
Local Arguments bytes_eqb : simpl never.

(** *** texts that are read again until nothing is left to do: jobs *)
Section Jobs.
Variable UL : list bytes.
Variable W : Type.
Variable text res : W -> list tok.
Variable next : W -> list (list tok + W).
Variable ok : W -> Prop.
Variable depth : W -> nat.
Hypothesis next_ok : forall w, ok w -> Forall (fun x => match x with inl t => fits table Inn t | inr w' => ok w' /\ (depth w' < depth w)%nat end) (next w).
Hypothesis text_ok : forall w, ok w -> walk true 0 (text w) = Some 0%nat /\ Forall (quiet UL) (text w).
Hypothesis text_step : forall w, ok w -> Closed UL (text w) (flat_map (fun x => match x with inl t => t | inr w' => text w' end) (next w)).
Hypothesis res_eq : forall w, ok w -> res w = flat_map (fun x => match x with inl t => t | inr w' => res w' end) (next w).

Fixpoint after (j : nat) (w : W) : list tok :=
  match j with Datatypes.O => text w | Datatypes.S k => flat_map (fun x => match x with inl t => t | inr w' => after k w' end) (next w) end.
Lemma after_step : forall j w, ok w -> Closed UL (after j w) (after (Datatypes.S j) w).
Proof.
  induction j as [|j IH]; intros w Hw; [apply text_step; exact Hw|].
  change (after (Datatypes.S j) w) with (flat_map (fun x => match x with inl t => t | inr w' => after j w' end) (next w)).
  change (after (Datatypes.S (Datatypes.S j)) w) with (flat_map (fun x => match x with inl t => t | inr w' => after (Datatypes.S j) w' end) (next w)).
  pose proof (next_ok w Hw) as N. induction N as [|x l Hx _ IHl]; [apply (closed_calm UL []); constructor|]. cbn [flat_map]. apply closed_app; [|exact IHl].
  destruct x as [t|w']; [apply closed_calm; apply Hx|apply IH; apply Hx].
Qed.
Lemma after_ok : forall j w, ok w -> walk true 0 (after j w) = Some 0%nat /\ Forall (quiet UL) (after j w).
Proof.
  induction j as [|j IH]; intros w Hw; [apply text_ok; exact Hw|]. cbn [after].
  pose proof (next_ok w Hw) as N. induction N as [|x l Hx _ IHl]; [split; [reflexivity|constructor]|]. cbn [flat_map].
  assert (X : walk true 0 (match x with inl t => t | inr w' => after j w' end) = Some 0%nat /\ Forall (quiet UL) (match x with inl t => t | inr w' => after j w' end)).
  { destruct x as [t|w']; [destruct Hx as [C T]; split; [exact T|apply calm_quiets; exact C]|apply IH; apply Hx]. }
  destruct X as [X1 X2]. destruct IHl as [Y1 Y2]. split; [rewrite (walk_app _ _ _ _ _ X1); exact Y1|apply Forall_app; auto].
Qed.
Lemma after_res : forall j w, ok w -> (depth w < j)%nat -> after j w = res w.
Proof.
  induction j as [|j IH]; intros w Hw L; [lia|]. rewrite res_eq by exact Hw. cbn [after].
  pose proof (next_ok w Hw) as N. induction N as [|x l Hx _ IHl]; [reflexivity|]. cbn [flat_map]. rewrite IHl. f_equal.
  destruct x as [t|w']; [reflexivity|]. destruct Hx as [H1 H2]. apply IH; [exact H1|lia].
Qed.
Lemma jobs_done : forallb (fun n => negb (has n UL)) (ev :: evals) = true -> forall w, ok w -> (depth w <= 256)%nat -> Closed (eval_names UL) (called ev (text w)) (res w).
Proof.
  intros D w Hw L. rewrite <- (after_res 257 w Hw ltac:(lia)). apply (eval_reads UL (fun j => after j w)).
  - intro j. apply after_step. exact Hw.
  - intro j. apply after_ok. exact Hw.
  - intro j. apply after_ok. exact Hw.
  - exact D.
Qed.
End Jobs.

(** *** runs that use what is known about calls *)
Definition eqn : Type := bytes * list stok * list stok.
Fixpoint answer (eqs : list eqn) (n : bytes) (a : list stok) : option (list stok) :=
  match eqs with [] => None | (m, b, r) :: l => if bytes_eqb n m && stoks_eqb a b then Some r else answer l n a end.
Definition known (base : list bytes) (eqs : list eqn) (n : bytes) : option (list bytes * (list stok -> option (list stok))) :=
  if existsb (fun e => bytes_eqb n (fst (fst e))) eqs then Some (base, answer eqs n) else None.
Definition holds (base : list bytes) (v : nat -> list tok) (e : eqn) : Prop := let '(m, b, r) := e in Closed base (called m (flat v b)) (flat v r).
Lemma known_ok : forall base eqs v, Forall (holds base v) eqs -> forall n un fn a res, known base eqs n = Some (un, fn) -> fn a = Some res ->
  closed table un (TId n false :: TLp :: flat v a ++ [TRp]) (flat v res).
Proof.
  intros base eqs v H n un fn a res K F. unfold known in K. destruct (existsb _ _); [|discriminate]. injection K as <- <-.
  induction H as [|[[m b] r] l He _ IH]; [discriminate|]. cbn [answer] in F. destruct (bytes_eqb n m && stoks_eqb a b) eqn:E; [|apply IH; exact F].
  injection F as <-. apply andb_prop in E. destruct E as [E1 E2]. apply bytes_eqb_eq in E1. apply stoks_eqb_eq in E2. subst. exact He.
Qed.
Lemma run_known : forall kind base eqs U v f s out, (forall k, fits table (kind k) (v k)) -> forallb (fun x => has x U) base = true -> Forall (holds base v) eqs ->
  gives (sk find kind (known base eqs) U f true [] (map ST s)) out = true -> Closed U (flat v s) (flat v out).
Proof.
  intros kind base eqs U v f s out Hv HU He G. apply gives_eq in G. eapply (sk_closed table find find_ok kind (known base eqs) U v Hv); [| |exact G].
  - intros n un fn x K I. unfold known in K. destruct (existsb _ _); [|discriminate]. injection K as <- _. rewrite forallb_forall in HU. apply HU. exact I.
  - intros. eapply known_ok; eauto.
Qed.

(** *** more of what the loops use: numbers, and separators *)
Definition base : list bytes := Eval vm_compute in used ++
  [str "H2PP_EQ"; str "H2PP_IS_PROBE"; str "H2PP_CAT5"; str "H2PP_PROBE"; str "_H2PP_TH1"; str "_H2PP_EQ__0__0"; str "_H2PP_EQ__1__1";
   str "H2PP_BOOL"; str "H2PP_COMPL"; str "H2PP_NOT"; str "_H2PP_NOT_0"; str "_H2PP_COMPL_0"; str "_H2PP_COMPL_1";
   str "H2PP_IF_ELSE"; str "_H2PP_IF_ELSE_0"; str "_H2PP_IF_ELSE_1"; str "H2PP_IS_BEGIN_PARENTHESIS"; str "_H2PP_IS_BEGIN_PARENTHESIS_PROBE"; str "H2PP_IS_PARENTHESIS"; str "H2PP_EMPTY";
   str "H2PP_REMOVE_PARENTHESES"; str "_H2PP_REMOVE_PARENTHESES"; str "H2PP_REMOVE_PARENTHESES_IF"; str "_H2PP_REMOVE_PARENTHESES_IF_0"; str "_H2PP_REMOVE_PARENTHESES_IF_1"]
   ++ map (fun n => str "H2PP_INC_" ++ str (DecimalString.NilEmpty.string_of_uint (Nat.to_uint n))) (seq 0 32)
   ++ map (fun n => str "H2PP_DEC_" ++ str (DecimalString.NilEmpty.string_of_uint (Nat.to_uint n))) (seq 1 32).
Definition runb (s : list stok) : option (list stok) := sk find kinds th_sum base 60 true [] (map ST s).
Definition n_unparen : bytes := Eval vm_compute in str "H2PP_REMOVE_PARENTHESES_IF".
Definition n_eq : bytes := Eval vm_compute in str "H2PP_EQ".
Definition n_cat2 : bytes := Eval vm_compute in str "H2PP_CAT2".
Definition n_bool : bytes := Eval vm_compute in str "H2PP_BOOL".
Definition t_inc : tok := Eval vm_compute in TId (str "H2PP_INC_") false.
Definition t_dec : tok := Eval vm_compute in TId (str "H2PP_DEC_") false.

Local Opaque sk find.
(** a run with no unknown parts *)
Lemma th_base : forall n un fn x, th_sum n = Some (un, fn) -> In x un -> has x base = true.
Proof. intros n un fn x H I. unfold th_sum in H. destruct (bytes_eqb n th64); [|discriminate]. injection H as <- _. destruct I as [<-|[<-|[]]]; vm_compute; reflexivity. Qed.
Lemma runb_closed : forall s out, gives (runb (map R s)) (map R out) = true -> Closed base s out.
Proof.
  intros s out H. apply gives_eq in H. assert (Hv : forall k, fits table (kinds k) (parts [number 0] [] [number 0] [] k)).
  { apply parts_ok; [apply (dummy_fits 0)|split; [constructor|reflexivity]|apply number_fits|constructor]. }
  pose proof (sk_closed table find find_ok kinds th_sum base _ Hv th_base (th_sum_ok _ 0 Hv eq_refl eq_refl ltac:(lia)) _ _ _ H) as C. rewrite !flat_real in C. exact C.
Qed.
Lemma used_base : forall n, In n used -> In n base.
Proof. intros n H. change (In n (used ++ skipn (length used) base)). apply in_or_app. left. exact H. Qed.

(** the number of a place; those after the last that can be counted are names *)
Fixpoint above (k : nat) : bytes := match k with Datatypes.O => str "32" | S k' => str "H2PP_INC_" ++ above k' end.
Definition idx (i : nat) : tok := Eval cbv delta [number] in if Nat.leb i 32 then number i else TId (above (Nat.min i 63 - 32)) false.
Lemma small : forall P : nat -> bool, forallb P (seq 0 33) = true -> forall i, (i <= 32)%nat -> P i = true.
Proof. intros P F i L. rewrite forallb_forall in F. apply F. apply in_seq. lia. Qed.
Lemma mid : forall P : nat -> bool, forallb P (seq 0 63) = true -> forall i, (i <= 62)%nat -> P i = true.
Proof. intros P F i L. rewrite forallb_forall in F. apply F. apply in_seq. lia. Qed.
Lemma above_new : forall k, (k <= 62)%nat -> match lookup table (above k) with None => true | Some _ => false end = true.
Proof. apply (mid (fun k => match lookup table (above k) with None => true | Some _ => false end)). vm_cast_no_check (eq_refl true). Qed.
Lemma idx_fits : forall i, fits table Loose [idx i].
Proof.
  intro i. unfold idx. destruct (Nat.leb i 32); (split; [|split; [discriminate|reflexivity]]); (constructor; [|constructor]); [exact I|].
  pose proof (above_new (Nat.min i 63 - 32) ltac:(lia)) as A. cbn [calm]. destruct (lookup table (above (Nat.min i 63 - 32))); [discriminate|reflexivity].
Qed.
Definition one_if (b : bool) : tok := number (if b then 1 else 0).
Lemma eq_zero : forall i, (i <= 62)%nat -> Closed base (called n_eq [number 0; TComma; idx i]) [one_if (Nat.eqb i 0)].
Proof.
  intros i L. apply runb_closed. revert i L. apply (mid (fun i => gives (runb (map R (called n_eq [number 0; TComma; idx i]))) (map R [one_if (Nat.eqb i 0)]))). vm_cast_no_check (eq_refl true).
Qed.
Lemma inc_one : forall i, (i <= 62)%nat -> Closed base (called n_cat2 [t_inc; TComma; idx i]) [idx (S i)].
Proof.
  intros i L. apply runb_closed. revert i L. apply (mid (fun i => gives (runb (map R (called n_cat2 [t_inc; TComma; idx i]))) (map R [idx (S i)]))). vm_cast_no_check (eq_refl true).
Qed.
Lemma dec_one : forall i, (i <= 31)%nat -> Closed base (called n_cat2 [t_dec; TComma; idx (S i)]) [idx i].
Proof.
  intros i L. apply runb_closed. assert (L' : (i <= 32)%nat) by lia. revert i L' L.
  assert (F : forall i, (i <= 32)%nat -> (if Nat.leb i 31 then gives (runb (map R (called n_cat2 [t_dec; TComma; idx (S i)]))) (map R [idx i]) else true) = true).
  { apply (small (fun i => if Nat.leb i 31 then gives (runb (map R (called n_cat2 [t_dec; TComma; idx (S i)]))) (map R [idx i]) else true)). vm_cast_no_check (eq_refl true). }
  intros i L' L. specialize (F i L'). rewrite (proj2 (Nat.leb_le i 31) L) in F. exact F.
Qed.
Lemma bool_of : forall i, (i <= 32)%nat -> Closed base (called n_bool [idx i]) [one_if (negb (Nat.eqb i 0))].
Proof.
  intros i L. apply runb_closed. revert i L. apply (small (fun i => gives (runb (map R (called n_bool [idx i]))) (map R [one_if (negb (Nat.eqb i 0))]))). vm_cast_no_check (eq_refl true).
Qed.

(** parentheses round a text *)
Lemma unparen_none : Closed base (called n_unparen []) [].
Proof. apply runb_closed. vm_cast_no_check (eq_refl true). Qed.
Lemma unparen_plain : forall w, fits table Plain w -> Closed base (called n_unparen w) w.
Proof.
  intros w Hw. set (v := parts w [] [number 0] []).
  assert (Hv : forall k, fits table (kinds k) (v k)) by (apply parts_ok; [exact Hw|split; [constructor|reflexivity]|apply number_fits|constructor]).
  assert (G : gives (runb (call [O 0] n_unparen)) [O 0] = true) by (vm_cast_no_check (eq_refl true)). apply gives_eq in G.
  pose proof (sk_closed table find find_ok kinds th_sum base v Hv th_base (th_sum_ok v 0 Hv eq_refl eq_refl ltac:(lia)) _ _ _ G) as C. rewrite flat_call in C.
  cbn [flat flat_map flat1] in C. rewrite !app_nil_r in C. exact C.
Qed.
Lemma unparen_group : forall p, fits table Inn p -> Closed base (called n_unparen (TLp :: p ++ [TRp])) p.
Proof.
  intros p Hp. set (v := parts [number 0] p [number 0] []).
  assert (Hv : forall k, fits table (kinds k) (v k)) by (apply parts_ok; [apply (dummy_fits 0)|exact Hp|apply number_fits|constructor]).
  assert (G : gives (runb (call [R TLp; O 1; R TRp] n_unparen)) [O 1] = true) by (vm_cast_no_check (eq_refl true)). apply gives_eq in G.
  pose proof (sk_closed table find find_ok kinds th_sum base v Hv th_base (th_sum_ok v 0 Hv eq_refl eq_refl ltac:(lia)) _ _ _ G) as C. rewrite flat_call in C.
  cbn [flat flat_map flat1] in C. rewrite !app_nil_r in C. exact C.
Qed.

(** lists, in the names of this part *)
Lemma empty_list : forall w ws, few (w :: ws) -> Closed base (called n_empty (commas (w :: ws))) [number 0].
Proof. intros. eapply closed_sub; [exact used_base|apply empty_values; assumption]. Qed.
Lemma empty_nil : Closed base (called n_empty []) [number 1].
Proof. eapply closed_sub; [exact used_base|exact empty_none]. Qed.
Lemma head_list : forall w ws, few (w :: ws) -> Closed base (called n_head (commas (w :: ws))) w.
Proof. intros. eapply closed_sub; [exact used_base|apply head_values; assumption]. Qed.
Lemma tail_list : forall w ws, few (w :: ws) -> Closed base (called n_tail (commas (w :: ws))) (commas ws).
Proof. intros. eapply closed_sub; [exact used_base|apply tail_values; assumption]. Qed.
Lemma narg_list : forall w ws, few (w :: ws) -> Closed base (called n_narg (commas (w :: ws))) [number (length (w :: ws))].
Proof. intros. eapply closed_sub; [exact used_base|apply narg_values; assumption]. Qed.
