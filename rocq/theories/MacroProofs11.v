(** Proofs about the list macros: the macros that start the loops. *)
From Coq Require Import List NArith Bool Arith Lia.
From Verif Require Import Base MacroModel MacroProofs MacroProofs2 MacroProofs3 MacroProofs4 MacroProofs5 MacroProofs6 MacroProofs7 MacroProofs8 MacroProofs9 MacroProofs10.
Import ListNotations.
Local Open Scope N_scope.
Local Arguments lookup : simpl never.
Local Arguments bytes_eqb : simpl never.

(** 40 stands for what the loop gives *)
Definition no40 (x : stok) : bool := match x with O k => negb (Nat.eqb k 40) | _ => true end.
Definition with40 (kind : nat -> cls) (k : nat) : cls := if Nat.eqb k 40 then Inn else kind k.
Definition put40 (v : nat -> list tok) (t : list tok) (k : nat) : list tok := if Nat.eqb k 40 then t else v k.
Lemma flat_put40 : forall v t s, forallb no40 s = true -> flat (put40 v t) s = flat v s.
Proof.
  intros v t. induction s as [|x s IH]; intros H; [reflexivity|]. cbn [forallb] in H. apply andb_prop in H. destruct H as [H1 H2].
  change (flat1 (put40 v t) x ++ flat (put40 v t) s = flat1 v x ++ flat v s). rewrite IH by exact H2. f_equal. destruct x as [t'|k]; [reflexivity|]. cbn [flat1]. unfold put40.
  cbn [no40] in H1. destruct (Nat.eqb k 40); [discriminate|reflexivity].
Qed.
Lemma fits_put40 : forall kind v t, (forall k, fits table (kind k) (v k)) -> fits table Inn t -> forall k, fits table (with40 kind k) (put40 v t k).
Proof. intros kind v t H Ht k. unfold with40, put40. destruct (Nat.eqb k 40); auto. Qed.
Lemma flat_40 : forall v t, flat (put40 v t) [O 40] = t.
Proof. intros v t. cbn. apply app_nil_r. Qed.

Local Opaque sk find.
(** a run in which the loop, called by H2PP_EVAL, is known *)
Definition run40 (kind : nat -> cls) (names : list bytes) (pend : list stok) (eqs : list eqn) (U : list bytes) (s : list stok) : option (list stok) :=
  sk find (with40 kind) (known (eval_names names) ((ev, pend, [O 40]) :: eqs)) U 60 true [] (map ST s).
Lemma run40_closed : forall kind names pend eqs U v t s out, (forall k, fits table (kind k) (v k)) -> fits table Inn t -> forallb (fun x => has x U) (eval_names names) = true ->
  forallb no40 pend = true -> Closed (eval_names names) (called ev (flat v pend)) t -> Forall (holds base v) eqs -> forallb (fun e => forallb no40 (snd (fst e) ++ snd e)) eqs = true ->
  forallb (fun x => has x (eval_names names)) base = true ->
  gives (run40 kind names pend eqs U s) out = true -> Closed U (flat (put40 v t) s) (flat (put40 v t) out).
Proof.
  intros kind names pend eqs U v t s out Hv Ht HU Hp Hc He Hn Hb G. apply (run_known (with40 kind) (eval_names names) ((ev, pend, [O 40]) :: eqs) U (put40 v t) 60 s out); try assumption.
  - apply fits_put40; assumption.
  - constructor.
    + unfold holds. rewrite flat_40, flat_put40 by exact Hp. exact Hc.
    + apply Forall_forall. intros [[m b] r] I. rewrite Forall_forall in He. specialize (He _ I). rewrite forallb_forall in Hn. specialize (Hn _ I). cbn in Hn. rewrite forallb_app in Hn.
      apply andb_prop in Hn. destruct Hn as [N1 N2]. unfold holds in *. rewrite !flat_put40 by assumption. eapply closed_sub; [|exact He]. intros n In1.
      rewrite forallb_forall in Hb. apply has_in. apply Hb. exact In1.
Qed.

(** *** H2PP_FOREACH and what is built on it *)
Definition outF : list bytes := Eval vm_compute in
  [str "H2PP_FOREACH"; str "H2Foreach"; str "__H2CASES1"; str "__H2CASES_T1"] ++ eval_names namesF.
Definition list15 (some : bool) : list stok := if some then [O 15] else [].
Definition tuple (l : list stok) : list stok := R TLp :: l ++ [R TRp].
Definition eqsT (some : bool) : list eqn := [(n_unparen, tuple (list15 some), list15 some)].
Definition topF (u : use) (some : bool) (s out : list stok) : bool :=
  forallb no40 (u_sep u ++ u_macro u ++ u_args u) && gives (run40 kindF namesF (pendF u true (R (number 0)) (list15 some)) (eqsT some) outF s) out.
Definition someb (vs : list (list tok)) : bool := match vs with [] => false | _ => true end.
Lemma names_evF : forallb (fun x => has x (eval_names namesF)) base = true. Proof. vm_compute. reflexivity. Qed.
Lemma names_outF : forallb (fun x => has x outF) (eval_names namesF) = true. Proof. vm_compute. reflexivity. Qed.
Lemma foreach_top : forall u c s out vs, checkF u = true -> (forall k, fits table (kindF k) (c k)) -> Closed base (called n_unparen (flat c (u_sep u))) (flat c (u_between u)) ->
  Forall value vs -> (length vs <= 63)%nat -> topF u (someb vs) s out = true ->
  Closed outF (flat (put40 (vF c 0 vs) (outs u c 0 vs)) s) (flat (put40 (vF c 0 vs) (outs u c 0 vs)) out).
Proof.
  intros u c s out vs Hu Hc Hs Hv L T. unfold topF in T. apply andb_prop in T. destruct T as [T0 T1]. rewrite !forallb_app in T0. apply andb_prop in T0. destruct T0 as [A1 T0]. apply andb_prop in T0. destruct T0 as [A2 A3].
  eapply run40_closed; [apply vF_ok; assumption|apply outs_fits; assumption|exact names_outF| | | | |exact names_evF|exact T1].
  - unfold pendF. cbn [app forallb no40]. rewrite !forallb_app. cbn [forallb no40]. rewrite A1. cbn [andb]. rewrite !forallb_app. cbn [forallb no40]. rewrite A2. cbn [andb]. rewrite !forallb_app. cbn [forallb no40]. rewrite A3.
    destruct (someb vs); reflexivity.
  - pose proof (foreach_done u c Hu Hc Hs vs Hv L) as D. unfold textF in D. rewrite (flat_pend u c Hu) in D |- * by (intros; apply flat_outer; assumption). destruct vs; exact D.
  - constructor; [|constructor]. unfold holds, tuple. destruct vs as [|w ws].
    + apply unparen_group. split; [constructor|reflexivity].
    + cbn [someb list15 app flat flat_map flat1]. rewrite app_nil_r. apply unparen_group. apply commas_inn. exact Hv.
  - destruct vs; reflexivity.
Qed.

(** separators *)
Inductive sep3 := SNone | SPlain | SGroup.
Definition s_in (x : sep3) : list stok := match x with SNone => [] | SPlain => [O 10] | SGroup => [R TLp; O 18; R TRp] end.
Definition s_out (x : sep3) : list stok := match x with SNone => [] | SPlain => [O 10] | SGroup => [O 18] end.
Lemma sep_closed : forall c x, fits table Plain (c 10%nat) -> fits table Inn (c 18%nat) -> Closed base (called n_unparen (flat c (s_in x))) (flat c (s_out x)).
Proof.
  intros c x H1 H2. destruct x; cbn [s_in s_out flat flat_map flat1 app]; rewrite ?app_nil_r.
  - exact unparen_none.
  - apply unparen_plain. exact H1.
  - apply unparen_group. exact H2.
Qed.
Definition a_in (a : bool) : list stok := if a then [O 12] else [].
Definition useF (x : sep3) (a : bool) : use :=
  mkuse (s_in x) (s_out x) [O 11] (a_in a) ([O 11; R TLp] ++ a_in a ++ [R TComma; O 13; R TComma; O 16; R TRp]).
Lemma useF_ok : forall x a, checkF (useF x a) = true.
Proof. intros [| |] [|]; vm_cast_no_check (eq_refl true). Qed.
Definition n_foreach : bytes := Eval vm_compute in str "H2PP_FOREACH".
(** with a comma before the list, and (for no values) without *)
Definition callF (x : sep3) (a some : bool) : list stok := call (s_in x ++ R TComma :: O 11 :: R TComma :: a_in a ++ R TComma :: list15 some) n_foreach.
Definition callF0 (x : sep3) (a : bool) : list stok := call (s_in x ++ R TComma :: O 11 :: R TComma :: a_in a) n_foreach.
Lemma topF_ok : forall x a some, topF (useF x a) some (callF x a some) [O 40] = true.
Proof. intros [| |] [|] [|]; vm_cast_no_check (eq_refl true). Qed.
Lemma topF0_ok : forall x a, topF (useF x a) false (callF0 x a) [O 40] = true.
Proof. intros [| |] [|]; vm_cast_no_check (eq_refl true). Qed.

(** the macros for cases and for calls *)
Definition t_id (s : bytes) : tok := TId s false.
Definition unlist : list stok -> list stok := fun l => tuple l.
Definition cb : tok := Eval vm_compute in t_id (str "__H2CASES_Callback").
Definition cbT : tok := Eval vm_compute in t_id (str "__H2CASES_T_Callback").
Definition cbE : tok := Eval vm_compute in t_id (str "_H2ForeachMacro").
Definition t_case : tok := Eval vm_compute in t_id (str "H2CASE").
Definition oth (s : bytes) : tok := TOther s.
Definition t_dot : tok := Eval vm_compute in hd TRp (lex [] (str ".")).
Definition t_lb : tok := Eval vm_compute in hd TRp (lex [] (str "{")).
Definition t_rb : tok := Eval vm_compute in hd TRp (lex [] (str "}")).
Definition t_semi : tok := Eval vm_compute in hd TRp (lex [] (str ";")).
Definition t_lt : tok := Eval vm_compute in hd TRp (lex [] (str "<")).
Definition t_gt : tok := Eval vm_compute in hd TRp (lex [] (str ">")).
Definition pack : list stok := [R TLp; O 30; R TComma; O 31; R TRp].
Definition useC (t : bool) : use :=
  mkuse [] [] [R (if t then cbT else cb)] pack
    ([R t_case; R TLp; O 31; O 13; R t_dot; O 16; R TRp; R t_lb; O 30] ++ (if t then [R t_lt; O 16; R t_gt; R TLp; R TRp] else [R TLp; O 16; R TRp]) ++ [R t_semi; R t_rb]).
Definition useE : use := mkuse [] [] [R cbE] [R TLp; O 30; R TRp] [O 30; R TLp; O 16; R TRp].
Lemma useC_ok : forall t, checkF (useC t) = true. Proof. intros [|]; vm_cast_no_check (eq_refl true). Qed.
Lemma useE_ok : checkF useE = true. Proof. vm_cast_no_check (eq_refl true). Qed.
Definition n_cases (t : bool) : bytes := Eval vm_compute in if t then str "__H2CASES_T1" else str "__H2CASES1".
Definition n_each : bytes := Eval vm_compute in str "H2Foreach".
Definition raw (s : bytes) : list stok := map R (lex [] s).
Definition declC (t : bool) : list stok * list stok := Eval vm_compute in
  if t then (raw (str "template <typename x> static void"), raw (str "()")) else (raw (str "template <typename T> static void"), raw (str "(T x)")).
Definition casesC (t : bool) : list stok := let d := fst (declC t) ++ O 30 :: snd (declC t) in d ++ R t_semi :: O 40 :: R t_semi :: d.
Lemma topC_ok : forall t some, topF (useC t) some (call (O 30 :: R TComma :: O 31 :: R TComma :: tuple (list15 some)) (n_cases t)) (casesC t) = true.
Proof. intros [|] [|]; vm_cast_no_check (eq_refl true). Qed.
Lemma topE_ok : forall some, topF useE some (call (O 30 :: R TComma :: tuple (list15 some)) n_each) [O 40] = true.
Proof. intros [|]; vm_cast_no_check (eq_refl true). Qed.
