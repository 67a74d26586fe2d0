(** Proofs about the macros for stubs and mocks: what they become. *)
From Coq Require Import List NArith Bool Arith Lia DecimalString.
From Verif Require Import Base MacroModel MacroProofs MacroProofs2 MacroProofs3 MacroProofs4 MacroProofs5 MacroProofs6 MacroProofs7 MacroProofs8 MacroProofs9 MacroProofs10 MacroProofs11 MacroProofs12 MacroProofs13 MacroProofs17 MacroProofs19 MacroProofs20.
From Verif Require MacroSpec MacroSpec2 MacroSpec4.
Import ListNotations.
Local Open Scope N_scope.
Local Arguments lookup : simpl never.
Local Arguments bytes_eqb : simpl never.

(** *** parentheses around all of an argument *)
Lemma unparen_heads : forall h, In h heads -> runb (call (R TLp :: O 6 :: R TRp :: h) n_unparen) = Some (R TLp :: O 6 :: R TRp :: h).
Proof.
  assert (G : forallb (fun s => gives (runb (call (R TLp :: O 6 :: R TRp :: s) n_unparen)) (R TLp :: O 6 :: R TRp :: s)) heads = true) by (vm_cast_no_check (eq_refl true)).
  intros h I. rewrite forallb_forall in G. exact (gives_eq _ _ (G h I)).
Qed.
Local Opaque sk find.
Lemma runb_closed : forall w s out, (forall k, fits table (kinds k) (w k)) -> ncommas 0 (w 5%nat) = 0%nat -> w 4%nat = [number 2] -> runb s = Some out -> Closed base (flat w s) (flat w out).
Proof.
  intros w s out Hw W5 W4 G. pose proof (sk_closed table find find_ok kinds th_sum base w Hw th_base (th_sum_ok w 0 Hw W5 W4 ltac:(lia)) _ _ _ G) as C. exact C.
Qed.
Local Transparent sk find.
Lemma heads_flat : forall v w h q, In h heads -> (forall k, k <> 6%nat -> w k = v k) -> flat v h = q -> flat w h = q.
Proof.
  intros v w h q I E <-. assert (X : forall k, Nat.eqb k 6 = false -> w k = v k) by (intros k H; apply E; apply Nat.eqb_neq; exact H).
  destruct I as [<-|[<-|[<-|[]]]]; cbn [flat flat_map flat1]; rewrite ?X by reflexivity; reflexivity.
Qed.
Lemma unparen_cast : forall p q, fits table Inn p -> value q -> Closed base (called n_unparen (TLp :: p ++ TRp :: q)) (TLp :: p ++ TRp :: q).
Proof.
  intros p q Hp Hq. destruct (shapes q [] Hq ltac:(constructor)) as (v & h & I & Hv & E & E5 & E4).
  set (w := fun k => if Nat.eqb k 6 then p else v k).
  assert (Hw : forall k, fits table (kinds k) (w k)) by (intro k; unfold w; destruct (Nat.eqb_spec k 6) as [->|]; [exact Hp|apply Hv]).
  assert (W5 : ncommas 0 (w 5%nat) = 0%nat) by (change (w 5%nat) with (v 5%nat); rewrite E5; reflexivity).
  assert (W4 : w 4%nat = [number 2]) by (change (w 4%nat) with (v 4%nat); rewrite E4; reflexivity).
  assert (F : flat w h = q) by (apply (heads_flat v w h q I); [intros k H; unfold w; apply Nat.eqb_neq in H; rewrite H; reflexivity|exact E]).
  pose proof (runb_closed w _ _ Hw W5 W4 (unparen_heads h I)) as C. rewrite flat_call in C.
  assert (F2 : flat w (R TLp :: O 6 :: R TRp :: h) = TLp :: p ++ TRp :: q) by (rewrite flat_R, flat_O, flat_R, F; reflexivity).
  rewrite F2 in C. exact C.
Qed.
Definition fine (x : MacroSpec4.arg) : Prop := Closed base (called n_unparen (fst x)) (snd x) /\ value (fst x) /\ fits table Inn (snd x).
Lemma means_fine : forall x, MacroSpec4.means x -> fine x.
Proof.
  intros [g t]. unfold MacroSpec4.means, fine. cbn [fst snd]. intros [[[V U] ->]|[T ->]].
  - split; [|split; [apply value_fits; exact V|apply text_fits; apply piece_text; exact (proj1 V)]].
    pose proof V as [P _]. inversion P as [E|w r Hw Hr E|a r Ha Hr E]; subst g.
    + exfalso. apply (proj2 V). reflexivity.
    + apply unparen_plain. apply plain_fits. split; [exact V|]. cbn. intro X. injection X as ->. exact Hw.
    + apply unparen_cast; [apply text_fits; exact Ha|]. apply value_fits. split; [exact Hr|]. intros ->. exact (U a Ha eq_refl).
  - split; [apply unparen_group; apply text_fits; exact T|]. split; [apply value_fits; apply group_value; exact T|apply text_fits; exact T].
Qed.
Lemma fine_none : fine ([number 0], [number 0]).
Proof. split; [apply unparen_plain; exact (dummy_fits 0)|]. split; [apply number_fits|]. split; [repeat constructor|reflexivity]. Qed.

(** *** the parts: 30 an object, 31 to 33 what is given as class or function, method, and type, 34 what is put in its place, 15 parameters; 51 to 53 what is meant by 31 to 33 *)
Definition kindS (k : nat) : cls := match k with 51%nat | 52%nat | 53%nat => Inn | _ => kindF k end.
Fixpoint s_listed (ls : list (list stok)) : list stok := match ls with [] => [] | [x] => x | x :: r => x ++ R TComma :: s_listed r end.
Definition nameS : list bytes := Eval vm_compute in [str "H2PP_VCALL"; str "H2PP_RESCAN"; str "H2PP_CAT"] ++ map (fun s => fst (define s)) (dispatch_text ++ stub_text ++ mock_text ++ catch_text) ++ base.
Definition eqsS (ls : list (list stok)) (some : bool) : list eqn :=
  [(n_narg, s_listed ls, [R (number (length ls))]); (n_unparen, [O 31], [O 51]); (n_unparen, [O 32], [O 52]); (n_unparen, [O 33], [O 53]); (n_empty, list15 some, [R (one_if (negb some))])].
Definition runS (m : bytes) (ls : list (list stok)) (some : bool) : option (list stok) := sk find kindS (known base (eqsS ls some)) nameS 60 true [] (map ST (call (s_listed ls) m)).
Definition vS (o : list tok) (f m s : MacroSpec4.arg) (d : list tok) (args : list (list tok)) (k : nat) : list tok :=
  match k with
  | 30%nat => o | 31%nat => fst f | 32%nat => fst m | 33%nat => fst s | 34%nat => d | 15%nat => commas args | 51%nat => snd f | 52%nat => snd m | 53%nat => snd s
  | _ => match kindS k with Inn => [] | _ => [number 0] end
  end.
Lemma vS_ok : forall o f m s d args, value o -> fine f -> fine m -> fine s -> value d -> Forall value args -> forall k, fits table (kindS k) (vS o f m s d args k).
Proof.
  intros o f m s d args Ho [_ [F1 F2]] [_ [M1 M2]] [_ [S1 S2]] Hd Ha k.
  do 54 (destruct k as [|k]; [first [assumption|exact (commas_inn args Ha)|exact (fill _)]|]). exact (fill _).
Qed.
Lemma flat_listed : forall v ls, flat v (s_listed ls) = MacroSpec.listed (map (flat v) ls).
Proof.
  intro v. induction ls as [|x [|y r] IH]; [reflexivity|reflexivity|]. change (flat v (x ++ R TComma :: s_listed (y :: r)) = flat v x ++ TComma :: MacroSpec.listed (map (flat v) (y :: r))). rewrite flat_app, flat_R, IH. reflexivity.
Qed.
Local Opaque sk find.
Lemma use_run : forall n ls out o f m s d args, value o -> fine f -> fine m -> fine s -> value d -> Forall value args -> (length args <= 63)%nat -> (length ls <= 63)%nat ->
  Forall value (map (flat (vS o f m s d args)) ls) -> gives (runS n ls (someb args)) out = true ->
  MacroSpec.becomes (MacroSpec.macro_use n (map (flat (vS o f m s d args)) ls)) (flat (vS o f m s d args) out).
Proof.
  intros n ls out o f m s d args Ho Hf Hm Hs Hd Ha La L Hl G. apply (closed_becomes nameS). rewrite use_called, <- listed_commas, <- flat_listed, <- flat_call.
  set (v := vS o f m s d args) in *. refine (run_known kindS base (eqsS ls (someb args)) nameS v 60 _ _ (vS_ok o f m s d args Ho Hf Hm Hs Hd Ha) ltac:(vm_compute; reflexivity) _ G).
  unfold eqsS. repeat (apply Forall_cons); [| | | | |constructor].
  - unfold holds. rewrite flat_listed, listed_commas. rewrite <- (map_length (flat v) ls). destruct ls as [|x r]; [exact narg_nil|]. apply (narg_list (flat v x) (map (flat v) r)). split; [exact Hl|]. rewrite <- (map_length (flat v)) in L. exact L.
  - unfold holds. cbn [flat flat_map flat1]. rewrite !app_nil_r. exact (proj1 Hf).
  - unfold holds. cbn [flat flat_map flat1]. rewrite !app_nil_r. exact (proj1 Hm).
  - unfold holds. cbn [flat flat_map flat1]. rewrite !app_nil_r. exact (proj1 Hs).
  - unfold holds. rewrite flat_list15 by reflexivity. destruct args as [|w ws]; [exact empty_nil|].
    exact (empty_list w ws (conj Ha La)).
Qed.

(** *** what is expected, with parts in place of arguments *)
Definition s_group (l : list stok) : list stok := R TLp :: l ++ [R TRp].
Inductive splace := SFun | SMet | SObj.
Definition s_written (p : splace) : list (list stok) := match p with SFun => [[O 31]] | SMet => [[O 31]; [O 32]] | SObj => [[O 30]; [O 31]; [O 32]] end.
Definition s_address : list stok := raw (str "&") ++ [O 51] ++ raw (str "::") ++ [O 52].
Definition s_pointer (p : splace) (f : list stok) (sg : list stok) : list stok :=
  match p with
  | SFun => raw (str "h2::h2_fp<") ++ sg ++ raw (str ">::get") ++ s_group f
  | SMet => raw (str "h2::h2_fp<") ++ s_listed [[O 51]; sg] ++ raw (str ">::get") ++ s_group s_address
  | SObj => raw (str "h2::h2_fp<") ++ s_listed [[O 51]; sg] ++ raw (str ">::get") ++ s_group (s_listed [raw (str "h2::h2_pointer_if") ++ s_group [O 30]; s_address])
  end.
Definition s_spelled (x : list stok) : list stok := raw (str "H2_SPELLED") ++ s_group x.
Definition s_naming (p : splace) : list stok := match p with SFun => s_spelled [O 31] | _ => s_spelled [O 31] ++ raw (str """::""") ++ s_spelled [O 32] end.
Definition s_here : list stok := raw (str "H2_FILINE").
Definition s_kept (kind : bytes) (p : splace) (f : list stok) (sg : list stok) : list stok :=
  raw (str "h2::" ++ kind ++ str "<") ++ s_listed [raw (str "__COUNTER__"); match p with SFun => raw (str "std::false_type") | _ => [O 51] end; sg] ++ raw (str ">::I") ++ s_group (s_listed [s_pointer p f sg; s_naming p; s_here]).
Definition s_lambda (p : splace) (some : bool) (ret : list stok) : list stok :=
  raw (str "[]") ++ s_group (match p with SFun => list15 some | _ => s_listed (([O 51] ++ raw (str "* This")) :: if some then [[O 15]] else []) end) ++ raw (str "->") ++ ret.
Definition s_typed (some : bool) : list stok := [O 53] ++ s_group (list15 some).

Definition s_catches (t m : list stok) : list stok :=
  raw (str "for (auto _Q__ = h2::h2_exception::try_catch(); _Q__; h2::h2_exception::check_catch<") ++ t ++ raw (str ">") ++ s_group (s_listed [m; s_here]) ++ R TRp :: raw (str "if (!::setjmp(h2::h2_exception::I().catch_hole))").
Definition s_plainly : list stok := raw (str "h2::h2_fp<>::get") ++ s_group [O 30].
Definition source_run : bool := gives (runS (str "H2STUB") [[O 30]; [O 34]] true) (raw (str "h2::h2_runner::stub") ++ s_group (s_listed [s_plainly; raw (str "(void*)") ++ [O 34]; s_spelled [O 30]; s_here])).
Definition unsource_run (m : bytes) : bool := gives (runS m [[O 30]] true) (raw (str "h2::h2_runner::unstub") ++ s_group s_plainly).
Definition catch_run0 : bool := gives (runS (str "H2Catch") [] true) (s_catches (raw (str "nothrow")) (raw (str "_"))).
Definition catch_run1 : bool := gives (runS (str "H2Catch") [[O 30]] true) (s_catches [O 30] (raw (str "_"))).
Definition catch_run2 : bool := gives (runS (str "H2Catch") [[O 30]; [O 34]] true) (s_catches [O 30] [O 34]).
Definition s_dns : list stok := raw (str "h2::h2_dns::setaddrinfo") ++ s_group (s_listed [[O 34]; [O 15]]).
Definition dns_run : bool := gives (sk find kindS (known base [(n_narg, [O 15], [O 34])]) nameS 60 true [] (map ST (call [O 15] (str "H2DNS")))) s_dns.
Definition stub_run (p : splace) : bool :=
  gives (runS (str "H2STUB") (s_written p ++ [[O 33]; [O 34]]) true)
    (match p with SFun => raw (str "h2::h2_runner::stub") ++ s_group (s_listed [s_pointer SFun [O 51] [O 53]; raw (str "(void*)") ++ s_group [O 34]; s_naming SFun; s_here])
     | _ => s_kept (str "h2_stuber") p [] [O 53] ++ raw (str "=") ++ [O 34] end).
Definition unstub_run (p : splace) : bool := gives (runS (str "H2UNSTUB") (s_written p ++ [[O 33]]) true) (raw (str "h2::h2_runner::unstub") ++ s_group (s_pointer p [O 51] [O 53])).
Definition unstubs_run (p : splace) (b : bool) : bool := gives (runS (str "H2UNSTUBS") (s_written p ++ [[O 33]; s_group (list15 b)]) b) (raw (str "h2::h2_runner::unstub") ++ s_group (s_pointer p [O 51] (s_typed b))).
Definition stubs_run (p : splace) (b : bool) : bool :=
  gives (runS (str "H2STUBS") (s_written p ++ [[O 33]; s_group (list15 b)]) b) (s_kept (str "h2_stuber") p [O 51] (s_typed b) ++ raw (str "=") ++ s_lambda p b (match p with SFun => [O 33] | _ => [O 53] end)).
Definition mock_run (p : splace) : bool := gives (runS (str "H2MOCK") (s_written p ++ [[O 33]]) true) (s_kept (str "h2_mocker") p [O 31] [O 53]).
Definition mocks_run (p : splace) (b : bool) : bool :=
  gives (runS (str "H2MOCKS") (s_written p ++ [[O 33]; s_group (list15 b); [O 34]]) b) (s_kept (str "h2_mocker") p [O 31] (s_typed b) ++ raw (str ".") ++ [O 34] ++ raw (str "=") ++ s_lambda p b [O 53]).
Local Transparent sk find.
Lemma source_ok : source_run = true. Proof. vm_cast_no_check (eq_refl true). Qed.
Lemma unsource_ok : unsource_run (str "H2UNSTUB") = true /\ unsource_run (str "H2UNSTUBS") = true. Proof. split; vm_cast_no_check (eq_refl true). Qed.
Lemma catch_ok0 : catch_run0 = true. Proof. vm_cast_no_check (eq_refl true). Qed.
Lemma catch_ok1 : catch_run1 = true. Proof. vm_cast_no_check (eq_refl true). Qed.
Lemma catch_ok2 : catch_run2 = true. Proof. vm_cast_no_check (eq_refl true). Qed.
Lemma dns_ok : dns_run = true. Proof. vm_cast_no_check (eq_refl true). Qed.
Lemma stub_ok : forall p, stub_run p = true. Proof. intros [| |]; vm_cast_no_check (eq_refl true). Qed.
Lemma unstub_ok : forall p, unstub_run p = true. Proof. intros [| |]; vm_cast_no_check (eq_refl true). Qed.
Lemma unstubs_ok : forall p b, unstubs_run p b = true. Proof. intros [| |] [|]; vm_cast_no_check (eq_refl true). Qed.
Lemma stubs_ok : forall p b, stubs_run p b = true. Proof. intros [| |] [|]; vm_cast_no_check (eq_refl true). Qed.
Lemma mock_ok : forall p, mock_run p = true. Proof. intros [| |]; vm_cast_no_check (eq_refl true). Qed.
Lemma mocks_ok : forall p b, mocks_run p b = true. Proof. intros [| |] [|]; vm_cast_no_check (eq_refl true). Qed.
Local Opaque sk find.
