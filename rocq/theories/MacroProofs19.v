(** Proofs about MATCHER: what is a parameter and what a message. *)
From Coq Require Import List NArith Bool Arith Lia DecimalString.
From Verif Require Import Base MacroModel MacroProofs MacroProofs2 MacroProofs3 MacroProofs4 MacroProofs5 MacroProofs6 MacroProofs7 MacroProofs8 MacroProofs9 MacroProofs10 MacroProofs11 MacroProofs12 MacroProofs13 MacroProofs17.
From Verif Require MacroSpec MacroSpec2 MacroSpec3.
Import ListNotations.
Local Open Scope N_scope.
Local Arguments lookup : simpl never.
Local Arguments bytes_eqb : simpl never.

(** the name is part 30, what follows it the parts from 31 *)
Definition vars (n : nat) : list stok := flat_map (fun k => [R TComma; O k]) (seq 31 n).
Definition n_matcher : bytes := Eval vm_compute in str "H2MATCHER".
Definition t_decl (k : nat) : tok := TId (n_matcher ++ str (NilEmpty.string_of_uint (Nat.to_uint k))) false.
Definition t_none : list stok := Eval vm_compute in raw (str "("""")").
Definition outsX : list bytes := Eval vm_compute in [str "H2MATCHER"; str "H2PP_VCALL"; str "H2PP_CAT"] ++ map (fun s => fst (define s)) custom_text ++ base.
Definition eqsX (n : nat) (b : bool) : list eqn := (n_narg, O 30 :: vars n, [R (number (S n))]) :: match n with Datatypes.O => [] | _ => [(n_ispar, [O (30 + n)%nat], [R (one_if b)])] end.
Definition resX (n : nat) (b : bool) : list stok :=
  if b then R (t_decl (pred n)) :: R TLp :: O 30 :: vars n ++ [R TRp]
  else if Nat.eqb n 6 then [] else R (t_decl n) :: R TLp :: O 30 :: vars n ++ R TComma :: t_none ++ [R TRp].
Definition runX (n : nat) (b : bool) : option (list stok) := sk find kindF (known base (eqsX n b)) outsX 60 true [] (map ST (call (O 30 :: vars n) n_matcher)).
Lemma runX_all : forallb (fun n => gives (runX n false) (resX n false)) (seq 0 7) && forallb (fun n => gives (runX n true) (resX n true)) (seq 1 6) = true.
Proof. vm_cast_no_check (eq_refl true). Qed.
Local Opaque sk find.
Definition vX (nm : list tok) (vs : list (list tok)) (k : nat) : list tok :=
  if Nat.eqb k 30 then nm else if Nat.leb 31 k then nth (k - 31) vs [number 0] else match kindF k with Inn => [] | _ => [number 0] end.
Lemma vX_ok : forall nm vs, value nm -> Forall value vs -> forall k, fits table (kindF k) (vX nm vs k).
Proof.
  intros nm vs Hn Hv k. unfold vX. destruct (Nat.eqb_spec k 30) as [->|N]; [exact Hn|]. destruct (Nat.leb_spec 31 k) as [L|L].
  - assert (K : kindF k = Loose) by (do 31 (destruct k as [|k]; [lia|]); reflexivity). rewrite K. destruct (nth_in_or_default (k - 31) vs [number 0]) as [I|E].
    + rewrite Forall_forall in Hv. exact (Hv _ I).
    + rewrite E. apply number_fits.
  - apply fill.
Qed.
Lemma flat_vars : forall nm vs, flat (vX nm vs) (vars (length vs)) = flat_map (fun x => TComma :: x) vs.
Proof.
  intros nm vs. unfold vars. assert (G : forall l j, (forall i, (i < length l)%nat -> nth (j + i - 31) vs [number 0] = nth i l [number 0]) -> (31 <= j)%nat ->
    flat (vX nm vs) (flat_map (fun k => [R TComma; O k]) (seq j (length l))) = flat_map (fun x => TComma :: x) l).
  { induction l as [|w l IH]; intros j H L; [reflexivity|]. cbn [length seq flat_map app]. change (TComma :: vX nm vs j ++ flat (vX nm vs) (flat_map (fun k => [R TComma; O k]) (seq (S j) (length l))) = TComma :: w ++ flat_map (fun x => TComma :: x) l).
    f_equal. f_equal.
    - unfold vX. destruct (Nat.eqb_spec j 30); [lia|]. rewrite (proj2 (Nat.leb_le 31 j) L). specialize (H 0%nat ltac:(cbn; lia)). rewrite Nat.add_0_r in H. exact H.
    - apply IH; [|lia]. intros i Li. specialize (H (S i) ltac:(cbn; lia)). rewrite Nat.add_succ_r in H. exact H. }
  apply G; [|lia]. intros i _. f_equal. lia.
Qed.
Lemma flat_all : forall nm vs, flat (vX nm vs) (O 30 :: vars (length vs)) = commas (nm :: vs).
Proof. intros nm vs. change (nm ++ flat (vX nm vs) (vars (length vs)) = commas (nm :: vs)). rewrite flat_vars. symmetry. apply MacroProofs3.commas_cons. Qed.
Lemma last_nth : forall nm vs, vs <> [] -> flat (vX nm vs) [O (30 + length vs)%nat] = last vs [].
Proof.
  intros nm vs N. cbn [flat flat_map flat1]. rewrite app_nil_r. unfold vX. destruct vs as [|w vs]; [contradiction|]. cbn [length]. destruct (Nat.eqb_spec (30 + S (length vs)) 30); [lia|].
  rewrite (proj2 (Nat.leb_le 31 _)) by lia. replace (30 + S (length vs) - 31)%nat with (length vs) by lia. clear. revert w. induction vs as [|x vs IH]; intro w; [reflexivity|]. change (nth (length vs) (x :: vs) [number 0] = last (x :: vs) []). exact (IH x).
Qed.
(** whether the last is in parentheses is known *)
Definition told (vs : list (list tok)) (b : bool) : Prop := match vs with [] => b = false | _ => Closed base (called n_ispar (last vs [])) [one_if b] end.
Lemma matcher_closed : forall nm vs b, value nm -> Forall value vs -> (length vs <= 6)%nat -> told vs b -> Closed outsX (called n_matcher (commas (nm :: vs))) (flat (vX nm vs) (resX (length vs) b)).
Proof.
  intros nm vs b Hn Hv L T. pose proof runX_all as A. apply andb_prop in A. destruct A as [A0 A1]. rewrite forallb_forall in A0, A1.
  assert (G : gives (runX (length vs) b) (resX (length vs) b) = true).
  { destruct b; [apply A1|apply A0]; apply in_seq; [|lia]. destruct vs; [discriminate T|cbn in *; lia]. }
  clear A0 A1. rewrite <- flat_all, <- flat_call.
  apply (run_known kindF base (eqsX (length vs) b) outsX (vX nm vs) 60 _ _ (vX_ok nm vs Hn Hv) ltac:(vm_compute; reflexivity)); [|exact G].
  assert (N : holds base (vX nm vs) (n_narg, O 30 :: vars (length vs), [R (number (S (length vs)))])).
  { unfold holds. rewrite flat_all. apply (narg_list nm vs). split; [constructor; assumption|cbn [length]; lia]. }
  constructor; [exact N|]. destruct vs as [|w vs]; [constructor|]. cbn [length]. constructor; [|constructor]. unfold holds. change (S (length vs)) with (length (w :: vs)). rewrite last_nth by discriminate. exact T.
Qed.

(** *** the statements *)
Lemma told_parameters : forall vs, MacroSpec3.parameters vs -> told vs false.
Proof.
  intros vs [Hv [->|[V U]]]; [reflexivity|]. destruct vs as [|w vs]; [reflexivity|]. unfold told. set (l := last (w :: vs) []) in *. clearbody l.
  pose proof V as [P _]. inversion P as [E|t r Hw Hr E|a r Ha Hr E]; subst l.
  - exfalso. apply (proj2 V). reflexivity.
  - apply ispar_plain. apply plain_fits. split; [exact V|]. cbn. intro X. injection X as ->. exact Hw.
  - apply ispar_cast; [apply text_fits; exact Ha|]. apply value_fits. split; [exact Hr|]. intros ->. exact (U a Ha eq_refl).
Qed.
Lemma last_app : forall (vs : list (list tok)) x, last (vs ++ [x]) [] = x.
Proof. intros. apply last_last. Qed.
Lemma told_message : forall vs m, MacroSpec.text m -> told (vs ++ [MacroSpec.group m]) true.
Proof. intros vs m H. unfold told. destruct (vs ++ [MacroSpec.group m]) eqn:E; [destruct vs; discriminate|]. rewrite <- E, last_app. apply ispar_group. apply text_fits. exact H. Qed.
Lemma group_value : forall m, MacroSpec.text m -> MacroSpec.value (MacroSpec.group m).
Proof. intros m H. split; [|discriminate]. apply MacroSpec.piece_group; [exact H|constructor]. Qed.
Lemma flat_none : forall v, flat v t_none = MacroSpec3.silent.
Proof. reflexivity. Qed.
Lemma declares_are : forall nm vs m, MacroSpec3.declares nm vs m = t_decl (length vs) :: TLp :: (nm ++ flat_map (fun x => TComma :: x) (vs ++ [m])) ++ [TRp].
Proof. intros nm vs m. unfold MacroSpec3.declares. rewrite use_called. unfold called. rewrite MacroProofs3.commas_cons. reflexivity. Qed.
Lemma matcher_becomes : forall nm vs, MacroSpec.value nm -> MacroSpec3.parameters vs -> (length vs <= 5)%nat ->
  MacroSpec.becomes (MacroSpec.macro_use (str "H2MATCHER") (nm :: vs)) (MacroSpec3.declares nm vs MacroSpec3.silent).
Proof.
  intros nm vs Hn Hp L. rewrite use_called. pose proof (matcher_closed nm vs false (value_fits _ Hn) (values_fit _ (proj1 Hp)) ltac:(lia) (told_parameters vs Hp)) as C.
  apply closed_becomes in C. unfold resX in C. destruct (Nat.eqb_spec (length vs) 6); [lia|]. rewrite declares_are.
  match type of C with MacroSpec.becomes _ ?x => match goal with |- MacroSpec.becomes _ ?y => replace y with x; [exact C|] end end.
  change (t_decl (length vs) :: TLp :: nm ++ flat (vX nm vs) (vars (length vs) ++ R TComma :: t_none ++ [R TRp]) = t_decl (length vs) :: TLp :: (nm ++ flat_map (fun x => TComma :: x) (vs ++ [MacroSpec3.silent])) ++ [TRp]).
  do 2 f_equal. rewrite flat_app, flat_vars, flat_map_app, <- !app_assoc. reflexivity.
Qed.
Lemma message_becomes : forall nm vs m, MacroSpec.value nm -> Forall MacroSpec.value vs -> (length vs <= 5)%nat -> MacroSpec.text m ->
  MacroSpec.becomes (MacroSpec.macro_use (str "H2MATCHER") (nm :: vs ++ [MacroSpec.group m])) (MacroSpec3.declares nm vs (MacroSpec.group m)).
Proof.
  intros nm vs m Hn Hv L Hm. rewrite use_called. set (ws := vs ++ [MacroSpec.group m]).
  assert (Hw : Forall MacroSpec.value ws) by (apply Forall_app; split; [exact Hv|constructor; [exact (group_value m Hm)|constructor]]).
  assert (Lw : length ws = S (length vs)) by (unfold ws; rewrite app_length; cbn; lia).
  pose proof (matcher_closed nm ws true (value_fits _ Hn) (values_fit _ Hw) ltac:(lia) (told_message vs m Hm)) as C.
  apply closed_becomes in C. unfold resX in C. rewrite declares_are.
  match type of C with MacroSpec.becomes _ ?x => match goal with |- MacroSpec.becomes _ ?y => replace y with x; [exact C|] end end.
  change (t_decl (pred (length ws)) :: TLp :: nm ++ flat (vX nm ws) (vars (length ws) ++ [R TRp]) = t_decl (length vs) :: TLp :: (nm ++ flat_map (fun x => TComma :: x) ws) ++ [TRp]).
  rewrite flat_app, flat_vars, Lw, <- app_assoc. reflexivity.
Qed.
Lemma six_becomes : forall nm vs, MacroSpec.value nm -> MacroSpec3.parameters vs -> length vs = 6%nat -> MacroSpec.becomes (MacroSpec.macro_use (str "H2MATCHER") (nm :: vs)) [].
Proof.
  intros nm vs Hn Hp L. rewrite use_called. pose proof (matcher_closed nm vs false (value_fits _ Hn) (values_fit _ (proj1 Hp)) ltac:(lia) (told_parameters vs Hp)) as C.
  apply closed_becomes in C. unfold resX in C. rewrite L in C. exact C.
Qed.
