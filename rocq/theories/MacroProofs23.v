(** Proofs about the macros for stubs and mocks: for the arguments as they are given. *)
From Coq Require Import List NArith Bool Arith Lia.
From Verif Require Import Base MacroModel MacroProofs MacroProofs2 MacroProofs3 MacroProofs4 MacroProofs5 MacroProofs6 MacroProofs7 MacroProofs8 MacroProofs9 MacroProofs10 MacroProofs11 MacroProofs12 MacroProofs13 MacroProofs17 MacroProofs19 MacroProofs20 MacroProofs22.
From Verif Require MacroSpec MacroSpec2 MacroSpec4.
Import ListNotations.
Local Open Scope N_scope.
Local Arguments lookup : simpl never.
Local Arguments bytes_eqb : simpl never.
Local Opaque sk find MacroSpec.words lex.

Definition none : MacroSpec4.arg := ([number 0], [number 0]).
Definition vP (p : MacroSpec4.place) (s : MacroSpec4.arg) (d : list tok) (args : list (list tok)) : nat -> list tok :=
  match p with MacroSpec4.Function f => vS [number 0] f none s d args | MacroSpec4.Method c m => vS [number 0] c m s d args | MacroSpec4.ObjectMethod o c m => vS o c m s d args end.
Definition shape (p : MacroSpec4.place) : splace := match p with MacroSpec4.Function _ => SFun | MacroSpec4.Method _ _ => SMet | MacroSpec4.ObjectMethod _ _ _ => SObj end.

Lemma flat_one : forall v k, flat v [O k] = v k. Proof. intros. rewrite flat_O. apply app_nil_r. Qed.
Lemma flat_group : forall v l, flat v (s_group l) = MacroSpec.group (flat v l).
Proof. intros. unfold s_group, MacroSpec.group. rewrite flat_R, flat_app, flat_R. reflexivity. Qed.
Ltac flats := repeat (rewrite ?flat_app, ?flat_raw, ?flat_group, ?flat_listed, ?flat_one; cbn [map]).
Lemma use_place : forall n p s d args tail out, MacroSpec4.sound p -> fine s -> value d -> Forall value args -> (length args <= 63)%nat -> (length tail <= 10)%nat ->
  Forall value (map (flat (vP p s d args)) tail) -> gives (runS n (s_written (shape p) ++ tail) (someb args)) out = true ->
  MacroSpec.becomes (MacroSpec.macro_use n (MacroSpec4.written p ++ map (flat (vP p s d args)) tail)) (flat (vP p s d args) out).
Proof.
  intros n p s d args tail out Hp Hs Hd Ha La Lt Ht G.
  assert (N : value [number 0]) by apply number_fits. pose proof fine_none as Fn.
  destruct p as [f|c m|o c m]; cbn [vP shape MacroSpec4.sound MacroSpec4.written s_written] in *.
  - pose proof (means_fine f Hp) as Ff.
    pose proof (use_run n ([[O 31]] ++ tail) out [number 0] f none s d args N Ff Fn Hs Hd Ha La ltac:(rewrite app_length; cbn [length]; lia)) as U. rewrite map_app in U. cbn [map] in U. rewrite !flat_one in U.
    apply U; [|exact G]. apply Forall_app. split; [|exact Ht]. constructor; [exact (proj1 (proj2 Ff))|constructor].
  - destruct Hp as [Hc Hm]. pose proof (means_fine c Hc) as Fc. pose proof (means_fine m Hm) as Fm.
    pose proof (use_run n ([[O 31]; [O 32]] ++ tail) out [number 0] c m s d args N Fc Fm Hs Hd Ha La ltac:(rewrite app_length; cbn [length]; lia)) as U. rewrite map_app in U. cbn [map] in U. rewrite !flat_one in U.
    apply U; [|exact G]. apply Forall_app. split; [|exact Ht]. constructor; [exact (proj1 (proj2 Fc))|constructor; [exact (proj1 (proj2 Fm))|constructor]].
  - destruct Hp as [Ho [Hc Hm]]. pose proof (means_fine c Hc) as Fc. pose proof (means_fine m Hm) as Fm. pose proof (value_fits o Ho) as Fo.
    pose proof (use_run n ([[O 30]; [O 31]; [O 32]] ++ tail) out o c m s d args Fo Fc Fm Hs Hd Ha La ltac:(rewrite app_length; cbn [length]; lia)) as U. rewrite map_app in U. cbn [map] in U. rewrite !flat_one in U.
    apply U; [|exact G]. apply Forall_app. split; [|exact Ht]. constructor; [exact Fo|constructor; [exact (proj1 (proj2 Fc))|constructor; [exact (proj1 (proj2 Fm))|constructor]]].
Qed.

(** what is expected *)
Definition given (p : MacroSpec4.place) (f : list stok) : Prop := f = [O 51] \/ (f = [O 31] /\ match p with MacroSpec4.Function x => MacroSpec4.as_given x | _ => True end).
Lemma pointer_is : forall p s d args f sg, given p f -> flat (vP p s d args) (s_pointer (shape p) f sg) = MacroSpec4.pointer p (flat (vP p s d args) sg).
Proof.
  intros p s d args f sg H. destruct p as [x|c m|o c m]; cbn [shape s_pointer MacroSpec4.pointer]; unfold s_address, MacroSpec4.address.
  - flats. destruct H as [->|[-> E]]; rewrite flat_one; cbn [vP vS]; [reflexivity|rewrite <- E; reflexivity].
  - flats. reflexivity.
  - flats. reflexivity.
Qed.
Lemma naming_is : forall p s d args, flat (vP p s d args) (s_naming (shape p)) = MacroSpec4.naming p.
Proof. intros p s d args. destruct p as [x|c m|o c m]; cbn [shape s_naming MacroSpec4.naming]; unfold s_spelled, MacroSpec4.spelled; flats; reflexivity. Qed.
Lemma kept_is : forall kind p s d args f sg, given p f -> flat (vP p s d args) (s_kept kind (shape p) f sg) = MacroSpec4.kept kind p (flat (vP p s d args) sg).
Proof.
  intros kind p s d args f sg H. unfold s_kept, MacroSpec4.kept, s_here, MacroSpec4.here. flats. rewrite (pointer_is p s d args f sg H), naming_is.
  destruct p as [x|c m|o c m]; cbn [shape]; flats; reflexivity.
Qed.
Lemma at15 : forall p s d args, vP p s d args 15%nat = commas args. Proof. intros [x|c m|o c m] s d args; reflexivity. Qed.
Lemma at33 : forall p s d args, vP p s d args 33%nat = fst s. Proof. intros [x|c m|o c m] s d args; reflexivity. Qed.
Lemma at34 : forall p s d args, vP p s d args 34%nat = d. Proof. intros [x|c m|o c m] s d args; reflexivity. Qed.
Lemma at53 : forall p s d args, vP p s d args 53%nat = snd s. Proof. intros [x|c m|o c m] s d args; reflexivity. Qed.
Lemma args_is : forall p s d args, flat (vP p s d args) (list15 (someb args)) = MacroSpec.listed args.
Proof. intros. rewrite (flat_list15 _ args (at15 p s d args)). symmetry. apply listed_commas. Qed.
Lemma typed_is : forall p s d args, flat (vP p s d args) (s_typed (someb args)) = snd s ++ MacroSpec.group (MacroSpec.listed args).
Proof. intros. unfold s_typed. flats. rewrite args_is, at53. reflexivity. Qed.
Lemma lambda_is : forall p s d args ret, flat (vP p s d args) (s_lambda (shape p) (someb args) ret) = MacroSpec4.lambda p args (flat (vP p s d args) ret).
Proof.
  intros p s d args ret. unfold s_lambda, MacroSpec4.lambda. flats. f_equal. f_equal. f_equal.
  destruct p as [x|c m|o c m]; cbn [shape]; [exact (args_is (MacroSpec4.Function x) s d args)| |].
  - destruct args as [|w ws]; cbn [someb]; flats; [reflexivity|]. cbn [MacroSpec.listed]. rewrite at15. change (commas (w :: ws)) with (MacroSpec.listed (w :: ws)). reflexivity.
  - destruct args as [|w ws]; cbn [someb]; flats; [reflexivity|]. cbn [MacroSpec.listed]. rewrite at15. change (commas (w :: ws)) with (MacroSpec.listed (w :: ws)). reflexivity.
Qed.

Lemma text_listed : forall vs, Forall MacroSpec.value vs -> MacroSpec.text (MacroSpec.listed vs).
Proof.
  induction vs as [|v [|w r] IH]; intro H; [constructor| |].
  - inversion H as [|? ? V1 V2]; subst. apply piece_text. exact (proj1 V1).
  - inversion H as [|? ? V1 V2]; subst. change (MacroSpec.text (v ++ TComma :: MacroSpec.listed (w :: r))). apply text_join; [apply piece_text; exact (proj1 V1)|]. apply MacroSpec.text_comma. exact (IH V2).
Qed.
Section Uses.
  Variables (p : MacroSpec4.place) (s : MacroSpec4.arg).
  Hypothesis Hp : MacroSpec4.sound p.
  Hypothesis Hs : MacroSpec4.means s.
  Let Fs : fine s := means_fine s Hs.
  Let Vs : value (fst s) := proj1 (proj2 Fs).
  Lemma stub_becomes : forall d, MacroSpec.value d -> MacroSpec.becomes (MacroSpec.macro_use (str "H2STUB") (MacroSpec4.written p ++ [fst s; d])) (MacroSpec4.stubbed p (snd s) d).
  Proof.
    intros d Hd. pose proof (value_fits d Hd) as Fd.
    pose proof (fun T => use_place (str "H2STUB") p s d [[number 0]] [[O 33]; [O 34]] _ Hp Fs Fd ltac:(constructor; [apply number_fits|constructor]) ltac:(cbn; lia) ltac:(cbn; lia) T (stub_ok (shape p))) as U.
    cbn [map] in U. rewrite !flat_one, at33, at34 in U. specialize (U ltac:(constructor; [exact Vs|constructor; [exact Fd|constructor]])).
    destruct p as [f|c m|o c m]; cbn [shape] in U.
    - set (P := MacroSpec4.Function f) in *. revert U. cbn [MacroSpec4.stubbed P]. flats. change SFun with (shape P). rewrite (pointer_is P s d _ [O 51] [O 53] (or_introl eq_refl)), naming_is, flat_one, at34, at53. exact (fun U => U).
    - set (P := MacroSpec4.Method c m) in *. revert U. cbn [MacroSpec4.stubbed P]. flats. change SMet with (shape P). rewrite (kept_is (str "h2_stuber") P s d _ [O 51] [O 53] (or_introl eq_refl)), flat_one, at34, at53. exact (fun U => U).
    - set (P := MacroSpec4.ObjectMethod o c m) in *. revert U. cbn [MacroSpec4.stubbed P]. flats. change SObj with (shape P). rewrite (kept_is (str "h2_stuber") P s d _ [O 51] [O 53] (or_introl eq_refl)), flat_one, at34, at53. exact (fun U => U).
  Qed.
  Lemma unstub_becomes : MacroSpec.becomes (MacroSpec.macro_use (str "H2UNSTUB") (MacroSpec4.written p ++ [fst s])) (MacroSpec4.unstubbed (MacroSpec4.pointer p (snd s))).
  Proof.
    pose proof (fun T => use_place (str "H2UNSTUB") p s [number 0] [[number 0]] [[O 33]] _ Hp Fs ltac:(apply number_fits) ltac:(constructor; [apply number_fits|constructor]) ltac:(cbn; lia) ltac:(cbn; lia) T (unstub_ok (shape p))) as U.
    cbn [map] in U. rewrite !flat_one, at33 in U. specialize (U ltac:(constructor; [exact Vs|constructor])).
    revert U. unfold MacroSpec4.unstubbed. flats. rewrite (pointer_is p s _ _ [O 51] [O 53] (or_introl eq_refl)), flat_one, at53. exact (fun U => U).
  Qed.
  Lemma mock_becomes : (forall f, p = MacroSpec4.Function f -> MacroSpec4.as_given f) -> MacroSpec.becomes (MacroSpec.macro_use (str "H2MOCK") (MacroSpec4.written p ++ [fst s])) (MacroSpec4.kept (str "h2_mocker") p (snd s)).
  Proof.
    intro A. assert (Hg : given p [O 31]) by (right; split; [reflexivity|destruct p; [apply A; reflexivity|exact Logic.I|exact Logic.I]]).
    pose proof (fun T => use_place (str "H2MOCK") p s [number 0] [[number 0]] [[O 33]] _ Hp Fs ltac:(apply number_fits) ltac:(constructor; [apply number_fits|constructor]) ltac:(cbn; lia) ltac:(cbn; lia) T (mock_ok (shape p))) as U.
    cbn [map] in U. rewrite !flat_one, at33 in U. specialize (U ltac:(constructor; [exact Vs|constructor])).
    rewrite (kept_is _ p s _ _ [O 31] [O 53] Hg), flat_one, at53 in U. exact U.
  Qed.
  Variable args : list (list tok).
  Hypothesis Ha : Forall MacroSpec.value args.
  Hypothesis La : (length args <= 63)%nat.
  Let Fa : Forall value args := values_fit args Ha.
  Let Fg : value (MacroSpec.group (MacroSpec.listed args)).
  Proof. apply value_fits, group_value, text_listed. exact Ha. Qed.
  Let signature : list tok := snd s ++ MacroSpec.group (MacroSpec.listed args).
  Lemma unstubs_becomes : MacroSpec.becomes (MacroSpec.macro_use (str "H2UNSTUBS") (MacroSpec4.written p ++ [fst s; MacroSpec.group (MacroSpec.listed args)])) (MacroSpec4.unstubbed (MacroSpec4.pointer p signature)).
  Proof.
    pose proof (fun T => use_place (str "H2UNSTUBS") p s [number 0] args [[O 33]; s_group (list15 (someb args))] _ Hp Fs ltac:(apply number_fits) Fa La ltac:(cbn; lia) T (unstubs_ok (shape p) (someb args))) as U.
    cbn [map] in U. rewrite flat_group, args_is, flat_one, at33 in U. specialize (U ltac:(constructor; [exact Vs|constructor; [exact Fg|constructor]])).
    revert U. unfold MacroSpec4.unstubbed. flats. rewrite (pointer_is p s _ _ [O 51] _ (or_introl eq_refl)), typed_is. exact (fun U => U).
  Qed.
  Lemma stubs_becomes : MacroSpec.becomes (MacroSpec.macro_use (str "H2STUBS") (MacroSpec4.written p ++ [fst s; MacroSpec.group (MacroSpec.listed args)]))
    (MacroSpec4.kept (str "h2_stuber") p signature ++ MacroSpec.words (str "=") ++ MacroSpec4.lambda p args (match p with MacroSpec4.Function _ => fst s | _ => snd s end)).
  Proof.
    pose proof (fun T => use_place (str "H2STUBS") p s [number 0] args [[O 33]; s_group (list15 (someb args))] _ Hp Fs ltac:(apply number_fits) Fa La ltac:(cbn; lia) T (stubs_ok (shape p) (someb args))) as U.
    cbn [map] in U. rewrite flat_group, args_is, flat_one, at33 in U. specialize (U ltac:(constructor; [exact Vs|constructor; [exact Fg|constructor]])).
    revert U. flats. rewrite (kept_is _ p s _ _ [O 51] _ (or_introl eq_refl)), typed_is, lambda_is.
    replace (flat (vP p s [number 0] args) (match shape p with SFun => [O 33] | _ => [O 53] end)) with (match p with MacroSpec4.Function _ => fst s | _ => snd s end) by (destruct p; cbn [shape]; rewrite flat_one; reflexivity).
    exact (fun U => U).
  Qed.
  Lemma mocks_becomes : forall d, MacroSpec.value d -> (forall f, p = MacroSpec4.Function f -> MacroSpec4.as_given f) ->
    MacroSpec.becomes (MacroSpec.macro_use (str "H2MOCKS") (MacroSpec4.written p ++ [fst s; MacroSpec.group (MacroSpec.listed args); d]))
    (MacroSpec4.kept (str "h2_mocker") p signature ++ MacroSpec.words (str ".") ++ d ++ MacroSpec.words (str "=") ++ MacroSpec4.lambda p args (snd s)).
  Proof.
    intros d Hd A. pose proof (value_fits d Hd) as Fd. assert (Hg : given p [O 31]) by (right; split; [reflexivity|destruct p; [apply A; reflexivity|exact Logic.I|exact Logic.I]]).
    pose proof (fun T => use_place (str "H2MOCKS") p s d args [[O 33]; s_group (list15 (someb args)); [O 34]] _ Hp Fs Fd Fa La ltac:(cbn; lia) T (mocks_ok (shape p) (someb args))) as U.
    cbn [map] in U. rewrite flat_group, args_is, !flat_one, at33, at34 in U. specialize (U ltac:(constructor; [exact Vs|constructor; [exact Fg|constructor; [exact Fd|constructor]]])).
    revert U. flats. rewrite (kept_is _ p s _ _ [O 31] _ Hg), typed_is, lambda_is, flat_one, at34, at53. exact (fun U => U).
  Qed.
End Uses.

(** addresses and names of functions *)
Definition vO (o d : list tok) : nat -> list tok := vS o none none none d [[number 0]].
Lemma use_source : forall n ls out o d, value o -> value d -> (length ls <= 63)%nat -> Forall value (map (flat (vO o d)) ls) -> gives (runS n ls true) out = true ->
  MacroSpec.becomes (MacroSpec.macro_use n (map (flat (vO o d)) ls)) (flat (vO o d) out).
Proof.
  intros n ls out o d Ho Hd L H G. exact (use_run n ls out o none none none d [[number 0]] Ho fine_none fine_none fine_none Hd ltac:(constructor; [apply number_fits|constructor]) ltac:(cbn; lia) L H G).
Qed.
Lemma source_becomes : forall o d, MacroSpec.value o -> MacroSpec.value d -> MacroSpec.becomes (MacroSpec.macro_use (str "H2STUB") [o; d])
  (MacroSpec.words (str "h2::h2_runner::stub") ++ MacroSpec.group (MacroSpec.listed [MacroSpec4.plainly o; MacroSpec.words (str "(void*)") ++ d; MacroSpec4.spelled o; MacroSpec4.here])).
Proof.
  intros o d Ho Hd. apply value_fits in Ho. apply value_fits in Hd. pose proof (fun T => use_source (str "H2STUB") [[O 30]; [O 34]] _ o d Ho Hd ltac:(cbn; lia) T source_ok) as U. cbn [map] in U. rewrite !flat_one in U.
  specialize (U ltac:(constructor; [exact Ho|constructor; [exact Hd|constructor]])). revert U. unfold s_plainly, s_spelled, s_here, MacroSpec4.plainly, MacroSpec4.spelled, MacroSpec4.here. flats. exact (fun U => U).
Qed.
Lemma unsource_becomes : forall o, MacroSpec.value o -> MacroSpec.becomes (MacroSpec.macro_use (str "H2UNSTUB") [o]) (MacroSpec4.unstubbed (MacroSpec4.plainly o)) /\ MacroSpec.becomes (MacroSpec.macro_use (str "H2UNSTUBS") [o]) (MacroSpec4.unstubbed (MacroSpec4.plainly o)).
Proof.
  assert (X : forall n, unsource_run n = true -> forall o, MacroSpec.value o -> MacroSpec.becomes (MacroSpec.macro_use n [o]) (MacroSpec4.unstubbed (MacroSpec4.plainly o))).
  { intros n G o Ho. apply value_fits in Ho. pose proof (fun T => use_source n [[O 30]] _ o [number 0] Ho ltac:(apply number_fits) ltac:(cbn; lia) T G) as U. cbn [map] in U. rewrite !flat_one in U.
    specialize (U ltac:(constructor; [exact Ho|constructor])). revert U. unfold s_plainly, MacroSpec4.unstubbed, MacroSpec4.plainly. flats. exact (fun U => U). }
  intros o Ho. split; [exact (X _ (proj1 unsource_ok) o Ho)|exact (X _ (proj2 unsource_ok) o Ho)].
Qed.
Lemma catches_is : forall v t m, flat v (s_catches t m) = MacroSpec4.catches (flat v t) (flat v m).
Proof. intros. unfold s_catches, MacroSpec4.catches, s_here, MacroSpec4.here. repeat (rewrite ?flat_app, ?flat_raw, ?flat_group, ?flat_listed, ?flat_R; cbn [map]). reflexivity. Qed.
Lemma catch_becomes : MacroSpec.becomes (MacroSpec.macro_use (str "H2Catch") []) (MacroSpec4.catches (MacroSpec.words (str "nothrow")) (MacroSpec.words (str "_"))) /\
  (forall t, MacroSpec.value t -> MacroSpec.becomes (MacroSpec.macro_use (str "H2Catch") [t]) (MacroSpec4.catches t (MacroSpec.words (str "_")))) /\
  (forall t m, MacroSpec.value t -> MacroSpec.value m -> MacroSpec.becomes (MacroSpec.macro_use (str "H2Catch") [t; m]) (MacroSpec4.catches t m)).
Proof.
  split; [|split].
  - pose proof (use_source (str "H2Catch") [] _ [number 0] [number 0] ltac:(apply number_fits) ltac:(apply number_fits) ltac:(cbn; lia) ltac:(constructor) catch_ok0) as U. cbn [map] in U. rewrite catches_is, !flat_raw in U. exact U.
  - intros t Ht. apply value_fits in Ht. pose proof (fun T => use_source (str "H2Catch") [[O 30]] _ t [number 0] Ht ltac:(apply number_fits) ltac:(cbn; lia) T catch_ok1) as U. cbn [map] in U. rewrite catches_is, !flat_one, flat_raw in U.
    exact (U ltac:(constructor; [exact Ht|constructor])).
  - intros t m Ht Hm. apply value_fits in Ht. apply value_fits in Hm. pose proof (fun T => use_source (str "H2Catch") [[O 30]; [O 34]] _ t m Ht Hm ltac:(cbn; lia) T catch_ok2) as U. cbn [map] in U. rewrite catches_is, !flat_one in U.
    exact (U ltac:(constructor; [exact Ht|constructor; [exact Hm|constructor]])).
Qed.
Lemma dns_becomes : forall args, args <> [] -> Forall MacroSpec.value args -> (length args <= 63)%nat ->
  MacroSpec.becomes (MacroSpec.macro_use (str "H2DNS") args) (MacroSpec.words (str "h2::h2_dns::setaddrinfo") ++ MacroSpec.group (MacroSpec.listed ([MacroSpec.numeral (length args)] :: args))).
Proof.
  intros args N Ha La. apply (closed_becomes nameS). rewrite use_called. set (v := vS [number 0] none none none [number (length args)] args).
  assert (Hv : forall k, fits table (kindS k) (v k)) by (apply vS_ok; [apply number_fits|exact fine_none|exact fine_none|exact fine_none|apply number_fits|exact (values_fit args Ha)]).
  pose proof (fun H => run_known kindS base [(n_narg, [O 15], [O 34])] nameS v 60 _ _ Hv ltac:(vm_compute; reflexivity) H dns_ok) as C.
  unfold s_dns in C. rewrite flat_call in C. repeat (rewrite ?flat_app, ?flat_raw, ?flat_group, ?flat_listed, ?flat_one in C; cbn [map] in C).
  replace (MacroSpec.listed ([MacroSpec.numeral (length args)] :: args)) with (MacroSpec.listed [v 34%nat; v 15%nat]) by (destruct args as [|w ws]; [contradiction|]; cbn [v vS MacroSpec.listed]; rewrite <- listed_commas; reflexivity).
  apply C. constructor; [|constructor]. unfold holds. rewrite !flat_one. destruct args as [|w ws]; [contradiction|]. apply (narg_list w ws). split; [exact (values_fit _ Ha)|exact La].
Qed.
