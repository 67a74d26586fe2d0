(** Proofs about the macros for assertions and for parts of a case: for the arguments as they are given. *)
From Coq Require Import List NArith Bool Arith Lia.
From Verif Require Import Base MacroModel MacroProofs MacroProofs2 MacroProofs3 MacroProofs4 MacroProofs5 MacroProofs6 MacroProofs7 MacroProofs8 MacroProofs9 MacroProofs10 MacroProofs11 MacroProofs12 MacroProofs13 MacroProofs15 MacroProofs17 MacroProofs19 MacroProofs20 MacroProofs22 MacroProofs23 MacroProofs25.
From Verif Require MacroSpec MacroSpec2 MacroSpec4 MacroSpec5.
Import ListNotations.
Local Open Scope N_scope.
Local Arguments lookup : simpl never.
Local Arguments bytes_eqb : simpl never.
Local Opaque sk find.

Lemma zero : value [number 0]. Proof. apply number_fits. Qed.
Lemma use_E : forall n s out e a x args, value e -> value a -> value x -> Forall value args -> (length args <= 63)%nat -> gives (runE n s (someb args)) out = true ->
  forall ls, flat (vE e a x args) s = MacroSpec.listed ls -> MacroSpec.becomes (MacroSpec.macro_use n ls) (flat (vE e a x args) out).
Proof.
  intros n s out e a x args He Ha Hx Hl L G ls E. apply (closed_becomes nameE). rewrite use_called, <- listed_commas, <- E, <- flat_call.
  set (v := vE e a x args) in *. refine (run_known kindS base (eqsE (someb args)) nameE v 60 _ _ (vE_ok e a x args He Ha Hx Hl) ltac:(vm_compute; reflexivity) _ G).
  unfold eqsE. repeat (apply Forall_cons); [| | |constructor].
  - exact empty_nil.
  - unfold holds. rewrite flat_one. apply (empty_list a []). split; [constructor; [exact Ha|constructor]|cbn; lia].
  - unfold holds. rewrite flat_list15 by reflexivity. destruct args as [|w ws]; [exact empty_nil|]. exact (empty_list w ws (conj Hl L)).
Qed.
Lemma unique_value : MacroSpec.value MacroSpec5.unique.
Proof.
  split; [|discriminate]. change MacroSpec5.unique with [TId (str "H2PP_UNIQUE") false; TLp; TRp]. apply MacroSpec.piece_word; [split; [reflexivity|apply new_name; vm_compute; reflexivity]|].
  apply (MacroSpec.piece_group [] []); constructor.
Qed.
Local Opaque MacroSpec.words lex.
Lemma flat_unique : forall v, flat v s_unique = MacroSpec5.unique. Proof. intro v. apply flat_raw. Qed.
Lemma use_J : forall ls out e a x, value e -> value a -> value x -> (length ls <= 62)%nat -> Forall value (map (flat (vE e a x [])) ls) -> gives (runJ ls) out = true ->
  MacroSpec.becomes (MacroSpec.macro_use (str "H2JE") (map (flat (vE e a x [])) ls)) (flat (vE e a x []) out).
Proof.
  intros ls out e a x He Ha Hx L Hl G. apply (closed_becomes nameE). rewrite use_called, <- listed_commas, <- flat_listed, <- flat_call.
  set (v := vE e a x []) in *. refine (run_known kindS base _ nameE v 60 _ _ (vE_ok e a x [] He Ha Hx ltac:(constructor)) ltac:(vm_compute; reflexivity) _ G).
  constructor; [|constructor]. unfold holds. rewrite flat_listed, listed_commas. cbn [map]. rewrite flat_unique.
  replace (length ls) with (length (map (flat v) ls)) by apply map_length. apply (narg_list MacroSpec5.unique (map (flat v) ls)).
  split; [constructor; [apply value_fits; exact unique_value|exact Hl]|cbn [length]; rewrite map_length; lia].
Qed.

(** what is expected *)
Ltac flatE := repeat (rewrite ?flat_app, ?flat_raw, ?flat_group, ?flat_listed, ?flat_one, ?flat_unique, ?flat_R; cbn [map]).
Lemma asserts_is : forall v b e a c, flat v (s_asserts b e a c) = MacroSpec5.asserts b (flat v e) (flat v a) (flat v c).
Proof. intros. unfold s_asserts, MacroSpec5.asserts, s_here, MacroSpec4.here. flatE. reflexivity. Qed.
Lemma part_is : forall v k a, flat v (s_part k a) = MacroSpec5.part k (flat v a).
Proof. intros. unfold s_part, MacroSpec5.part. flatE. reflexivity. Qed.
Lemma spelled_is : forall v x, flat v (s_spelled x) = MacroSpec4.spelled (flat v x).
Proof. intros. unfold s_spelled, MacroSpec4.spelled. flatE. reflexivity. Qed.
Lemma block_is : forall v a, flat v (s_block a) = MacroSpec5.block (flat v a).
Proof. intros. unfold s_block, MacroSpec5.block, s_here, MacroSpec4.here. rewrite part_is. flatE. reflexivity. Qed.
Lemma list15_is : forall e a x args, flat (vE e a x args) (list15 (someb args)) = MacroSpec.listed args.
Proof. intros. rewrite (flat_list15 _ args eq_refl). symmetry. apply listed_commas. Qed.
Lemma more_is : forall e a x args, flat (vE e a x args) (s_more (someb args)) = MacroSpec.listed (e :: args).
Proof. intros e a x args. unfold s_more. destruct args as [|w ws]; cbn [someb]; flatE; [reflexivity|]. cbn [vE]. change (commas (w :: ws)) with (MacroSpec.listed (w :: ws)). reflexivity. Qed.

Lemma ok1_becomes : forall (b : bool) x, MacroSpec.value x -> MacroSpec.becomes (MacroSpec.macro_use (if b then str "H2KO" else str "H2OK") [x]) (MacroSpec5.holds1 b x).
Proof.
  intros b x Hx. apply value_fits in Hx. pose proof (use_E (namedO b) [O 30] _ x [number 0] [number 0] [[number 0]] Hx zero zero ltac:(constructor; [exact zero|constructor]) ltac:(cbn; lia) (ok1_run b) [x] ltac:(rewrite flat_one; reflexivity)) as U.
  revert U. unfold s_holds1, MacroSpec5.holds1, s_self, MacroSpec5.self, MacroSpec5.no_text. rewrite asserts_is, spelled_is. flatE. exact (fun U => U).
Qed.
Lemma ok2_becomes : forall (b : bool) e a, MacroSpec.value e -> MacroSpec.value a -> MacroSpec.becomes (MacroSpec.macro_use (if b then str "H2KO" else str "H2OK") [e; a]) (MacroSpec5.holds2 b e a).
Proof.
  intros b e a He Ha. apply value_fits in He. apply value_fits in Ha.
  pose proof (use_E (namedO b) [O 30; R TComma; O 34] _ e a [number 0] [[number 0]] He Ha zero ltac:(constructor; [exact zero|constructor]) ltac:(cbn; lia) (ok2_run b) [e; a] ltac:(rewrite flat_O, flat_R, flat_one; reflexivity)) as U.
  revert U. unfold s_holds2, MacroSpec5.holds2, s_self, MacroSpec5.self. rewrite asserts_is. flatE. rewrite !spelled_is, !flat_one. exact (fun U => U).
Qed.
Lemma je_becomes : forall e a, MacroSpec.value e -> MacroSpec.value a -> MacroSpec.becomes (MacroSpec.macro_use (str "H2JE") [e; a]) (MacroSpec5.json e a MacroSpec5.no_text) /\
  (forall s, MacroSpec.value s -> MacroSpec.becomes (MacroSpec.macro_use (str "H2JE") [e; a; s]) (MacroSpec5.json e a s)).
Proof.
  intros e a He Ha. apply value_fits in He. apply value_fits in Ha. split.
  - pose proof (fun T => use_J [[O 30]; [O 34]] _ e a [number 0] He Ha zero ltac:(cbn; lia) T je2_run) as U. cbn [map] in U. rewrite !flat_one in U. specialize (U ltac:(constructor; [exact He|constructor; [exact Ha|constructor]])).
    revert U. unfold s_json, MacroSpec5.json, s_self, MacroSpec5.self, MacroSpec5.no_text. rewrite asserts_is, !spelled_is. flatE. exact (fun U => U).
  - intros s Hs. apply value_fits in Hs. pose proof (fun T => use_J [[O 30]; [O 34]; [O 35]] _ e a s He Ha Hs ltac:(cbn; lia) T je3_run) as U. cbn [map] in U. rewrite !flat_one in U.
    specialize (U ltac:(constructor; [exact He|constructor; [exact Ha|constructor; [exact Hs|constructor]]])).
    revert U. unfold s_json, MacroSpec5.json, s_self, MacroSpec5.self. rewrite asserts_is, !spelled_is. flatE. exact (fun U => U).
Qed.
Lemma eq_becomes : forall e, MacroSpec.value e -> MacroSpec.becomes (MacroSpec.macro_use (str "H2Eq") [e]) (MacroSpec5.equals e None) /\
  (forall a, MacroSpec.value a -> MacroSpec.becomes (MacroSpec.macro_use (str "H2Eq") [e; a]) (MacroSpec5.equals e (Some a))).
Proof.
  intros e He. apply value_fits in He. split.
  - pose proof (use_E (str "H2Eq") [O 30] _ e [number 0] [number 0] [[number 0]] He zero zero ltac:(constructor; [exact zero|constructor]) ltac:(cbn; lia) eq1_run [e] ltac:(rewrite flat_one; reflexivity)) as U.
    revert U. unfold s_equals, MacroSpec5.equals. flatE. exact (fun U => U).
  - intros a Ha. apply value_fits in Ha.
    pose proof (use_E (str "H2Eq") [O 30; R TComma; O 34] _ e a [number 0] [[number 0]] He Ha zero ltac:(constructor; [exact zero|constructor]) ltac:(cbn; lia) eq2_run [e; a] ltac:(rewrite flat_O, flat_R, flat_one; reflexivity)) as U.
    revert U. unfold s_equals, MacroSpec5.equals. flatE. exact (fun U => U).
Qed.
Lemma me_becomes : forall b args, MacroSpec.value b -> Forall MacroSpec.value args -> (length args <= 63)%nat -> MacroSpec.becomes (MacroSpec.macro_use (str "H2Me") (b :: args)) (MacroSpec5.same_memory b args).
Proof.
  intros b args Hb Ha L. apply value_fits in Hb. apply values_fit in Ha.
  pose proof (use_E (str "H2Me") _ _ b [number 0] [number 0] args Hb zero zero Ha L (me_run (someb args)) (b :: args) (more_is _ _ _ _)) as U.
  revert U. unfold s_memory, MacroSpec5.same_memory. rewrite flat_app, flat_raw, flat_group, flat_listed, map_app. cbn [map]. flatE.
  replace (map (flat (vE b [number 0] [number 0] args)) (if someb args then [[O 15]] else [])) with (match args with [] => [] | _ => [MacroSpec.listed args] end) by (destruct args; cbn [someb map]; rewrite ?flat_one; reflexivity).
  destruct args as [|w ws]; exact (fun U => U).
Qed.
Lemma unmem_becomes : forall args, Forall MacroSpec.value args -> (length args <= 63)%nat -> MacroSpec.becomes (MacroSpec.macro_use (str "H2UNMEM") args) (MacroSpec5.unwatched args).
Proof.
  intros args Ha L. apply values_fit in Ha. pose proof (use_E (str "H2UNMEM") _ _ [number 0] [number 0] [number 0] args zero zero zero Ha L (unmem_run (someb args)) args (list15_is _ _ _ _)) as U.
  unfold MacroSpec5.unwatched. destruct args as [|w ws]; cbn [someb] in U; revert U.
  - rewrite block_is, flat_raw. exact (fun U => U).
  - flatE. exact (fun U => U).
Qed.
Lemma block_becomes : forall args, Forall MacroSpec.value args -> (length args <= 63)%nat -> MacroSpec.becomes (MacroSpec.macro_use (str "H2BLOCK") args) (MacroSpec5.block (MacroSpec4.spelled (MacroSpec.listed args))).
Proof.
  intros args Ha L. apply values_fit in Ha. pose proof (use_E (str "H2BLOCK") _ _ [number 0] [number 0] [number 0] args zero zero zero Ha L (block_run (someb args)) args (list15_is _ _ _ _)) as U.
  rewrite block_is, spelled_is, list15_is in U. exact U.
Qed.
Lemma cout_becomes : forall m args, MacroSpec.value m -> Forall MacroSpec.value args -> (length args <= 63)%nat -> MacroSpec.becomes (MacroSpec.macro_use (str "H2COUT") (m :: args)) (MacroSpec5.captures m args).
Proof.
  intros m args Hm Ha L. apply value_fits in Hm. apply values_fit in Ha.
  pose proof (use_E (str "H2COUT") _ _ m [number 0] [number 0] args Hm zero zero Ha L (cout_run (someb args)) (m :: args) (more_is _ _ _ _)) as U.
  revert U. unfold s_captures, MacroSpec5.captures, s_here, MacroSpec4.here. rewrite part_is. flatE. rewrite !spelled_is, list15_is, flat_one. exact (fun U => U).
Qed.
Lemma parts_become : (forall ms, MacroSpec.value ms -> MacroSpec.becomes (MacroSpec.macro_use (str "H2PF") [ms]) (MacroSpec5.part (str "h2::h2_timer") (MacroSpec.group (MacroSpec.listed [ms; MacroSpec4.here])))) /\
  (forall args, Forall MacroSpec.value args -> (length args <= 63)%nat -> MacroSpec.becomes (MacroSpec.macro_use (str "H2SOCK") args) (MacroSpec5.part (str "h2::h2_sock") [])).
Proof.
  split.
  - intros ms Hm. apply value_fits in Hm. pose proof (use_E (str "H2PF") [O 30] _ ms [number 0] [number 0] [[number 0]] Hm zero zero ltac:(constructor; [exact zero|constructor]) ltac:(cbn; lia) pf_run [ms] ltac:(rewrite flat_one; reflexivity)) as U.
    revert U. rewrite part_is. unfold s_here, MacroSpec4.here. flatE. exact (fun U => U).
  - intros args Ha L. apply values_fit in Ha. pose proof (use_E (str "H2SOCK") _ _ [number 0] [number 0] [number 0] args zero zero zero Ha L (sock_run (someb args)) args (list15_is _ _ _ _)) as U.
    rewrite part_is in U. exact U.
Qed.
