From Coq Require Import List NArith Bool Arith Lia.
From Verif Require Import Base OptionModel OptionSpec.
Import ListNotations.
Local Open Scope N_scope.

(** ** candidates *)
Lemma begins_ok : forall a t, begins a t = true <-> ci_prefix a t.
Proof.
  induction a as [|x a IH]; intros t; cbn [begins].
  - split; auto. intros _. exists [], t. auto.
  - destruct t as [|y t].
    + split; [discriminate|]. intros (p & q & E & M). destruct p; discriminate.
    + rewrite andb_true_iff, N.eqb_eq, IH, !tolower_lower. split.
      * intros (E & p & q & -> & M). exists (y :: p), q. split; auto. cbn. rewrite E, M. reflexivity.
      * intros (p & q & E & M). destruct p as [|z p]; [discriminate|]. cbn in E, M. injection E as -> ->. injection M as M1 M2. split; auto. exists p, q. auto.
Qed.
Lemma begins_no : forall a t, begins a t = false <-> ~ ci_prefix a t.
Proof. intros a t. rewrite <- begins_ok. destruct (begins a t); split; congruence. Qed.
Lemma filter_none : forall (f : bytes -> bool) l, filter f l = [] <-> Forall (fun x => f x = false) l.
Proof. induction l as [|x l IH]; cbn; [split; auto|]. destruct (f x) eqn:E; split; intros H; try discriminate; [inversion H; congruence|constructor; tauto|apply IH; inversion H; auto]. Qed.
Lemma filter_one : forall (f : bytes -> bool) l m, filter f l = [m] <-> exists a b, l = a ++ m :: b /\ f m = true /\ Forall (fun x => f x = false) (a ++ b).
Proof.
  intros f l m. split.
  - induction l as [|x l IH]; cbn; [discriminate|]. destruct (f x) eqn:E; intros H.
    + injection H as -> H. exists [], l. split; auto. split; auto. apply filter_none. auto.
    + destruct (IH H) as (a & b & -> & M & F). exists (x :: a), b. split; auto. split; auto. constructor; auto.
  - intros (a & b & -> & M & F). apply Forall_app in F. destruct F as [F1 F2]. rewrite filter_app. cbn. rewrite M. apply filter_none in F1. apply filter_none in F2. rewrite F1, F2. reflexivity.
Qed.
Lemma filter_abbrev : forall w l n, filter (begins w) l = [n] <-> abbrev l w n.
Proof.
  intros w l n. rewrite filter_one. unfold abbrev. split; intros (a & b & E & M & F); exists a, b; (split; [auto|]); (split; [apply begins_ok; auto|]); eapply Forall_impl; try exact F; intros x; cbn; rewrite begins_no; auto.
Qed.
Lemma candidate_found : forall w l n, (length l <= 32)%nat -> (candidate w l = Found n <-> abbrev l w n).
Proof.
  intros w l n L. rewrite <- filter_abbrev. unfold candidate. replace (32 <? length l)%nat with false by (symmetry; apply Nat.ltb_ge; auto).
  destruct (filter (begins w) l) as [|m [|m2 ms]]; [| |]; split; intros H; try discriminate; try congruence; repeat (match type of H with context [if ?b then _ else _] => destruct b; try discriminate end).
Qed.
Lemma candidate_error : forall w l amb listed, (length l <= 32)%nat -> candidate w l = Error amb listed ->
  (amb = false /\ listed = l /\ Forall (fun x => ~ ci_prefix w x) l) \/
  (amb = true /\ listed = filter (begins w) l /\ (2 <= length listed)%nat /\ forall x, In x listed <-> In x l /\ ci_prefix w x).
Proof.
  intros w l amb listed L. unfold candidate. replace (32 <? length l)%nat with false by (symmetry; apply Nat.ltb_ge; auto).
  destruct (filter (begins w) l) as [|m [|m2 ms]] eqn:E; [| |]; intros H; try discriminate.
  - destruct (1024 <=? _)%nat; [discriminate|]. injection H as <- <-. left. split; auto. split; auto. apply filter_none in E. eapply Forall_impl; [|exact E]. intros x. cbn. apply begins_no.
  - destruct (1024 <=? _)%nat; [discriminate|]. injection H as <- <-. right. split; auto. split; auto. split; [cbn; lia|]. intros x. rewrite <- E, filter_In, begins_ok. reflexivity.
Qed.

(** ** termination *)
Lemma span_app : forall j, let (d, q) := span j in j = d ++ q /\ forallb digit d = true.
Proof. induction j as [|c j IH]; cbn [span]; auto. destruct (digit c) eqn:D; [|auto]. destruct (span j) as [d q]. destruct IH as [-> F]. split; auto. cbn. rewrite D. auto. Qed.
Lemma size_cons : forall j a r, size j (a :: r) = (S (length a) + size j r)%nat. Proof. intros. unfold size. cbn [map]. change (list_sum (S (length a) :: ?l)) with (S (length a) + list_sum l)%nat. lia. Qed.
Lemma size_j : forall c j r, size (c :: j) r = S (size j r). Proof. reflexivity. Qed.
Lemma fetch_size : forall rest c j r, fetch rest = Some (c, j, r) -> (size j r < size [] rest)%nat.
Proof.
  induction rest as [|a rest IH]; intros c j r E; [discriminate|]. rewrite size_cons. cbn [fetch] in E.
  assert (G : fetch rest = Some (c, j, r) -> (size j r < S (length a) + size [] rest)%nat) by (intros H; apply IH in H; lia).
  destruct a as [|x a]; [auto|]. destruct x as [|p]; [auto|]. destruct p as [p|p|]; auto. destruct p as [p|p|]; auto. destruct p as [p|p|]; auto. destruct p as [p|p|]; auto. destruct p as [p|p|]; auto. destruct p as [p|p|]; auto.
  destruct a as [|y a]; auto. injection E as <- <- <-. unfold size. cbn [length]. lia.
Qed.
Lemma next_size : forall j rest c j' r, next_option j rest = Some (c, j', r) -> (size j' r < size j rest)%nat.
Proof. intros [|x j] rest c j' r E; cbn in E; [apply fetch_size in E; auto|]. injection E as <- <- <-. rewrite size_j. lia. Qed.
Lemma dash_case : forall (a : bytes), (exists r, a = 45 :: r) \/ hd 0 a <> 45.
Proof. intros [|x a]; [right; discriminate|]. destruct (N.eq_dec x 45) as [->|N]; [left; eauto|right; auto]. Qed.
Lemma strings_undashed : forall a rest, undashed a -> extract_strings (a :: rest) = (a :: fst (extract_strings rest), snd (extract_strings rest)).
Proof.
  intros a rest U. cbn [extract_strings]. destruct (extract_strings rest) as [l q]. cbn. destruct a as [|x a]; auto. unfold undashed in U. cbn in U.
  destruct x as [|p]; auto. do 6 (destruct p as [p|p|]; auto). congruence.
Qed.
Lemma string_undashed : forall a rest, undashed a -> extract_string (a :: rest) = Some (a, rest).
Proof. intros a rest U. cbn [extract_string]. destruct a as [|x a]; auto. unfold undashed in U. cbn in U. destruct x as [|p]; auto. do 6 (destruct p as [p|p|]; auto). congruence. Qed.
Lemma strings_size : forall rest j, (size j (snd (extract_strings rest)) <= size j rest)%nat.
Proof.
  induction rest as [|a rest IH]; intros j; [auto|]. destruct (dash_case a) as [(r & ->)|U]; [cbn [extract_strings snd]; auto|]. rewrite strings_undashed by auto. cbn [snd]. rewrite size_cons. specialize (IH j). lia.
Qed.
Lemma string_size : forall rest t r j, extract_string rest = Some (t, r) -> (size j r <= size j rest)%nat.
Proof. intros [|a rest] t r j E; [discriminate|]. destruct (dash_case a) as [(q & ->)|U]; [discriminate|]. rewrite string_undashed in E by auto. injection E as <- <-. rewrite size_cons. lia. Qed.
Lemma number_size : forall j rest v j' r, extract_number j rest = Some (v, j', r) -> (size j' r <= size j rest)%nat.
Proof.
  intros j rest v j' r. unfold extract_number. pose proof (span_app j) as S. destruct (span j) as [d q]. destruct S as [-> _]. destruct d as [|c d]; cbn [app].
  - destruct rest as [|a rest]; [intros E; injection E as <- <- <-; auto|]. destruct (negb _ && _); [|intros E; injection E as <- <- <-; auto]. destruct (atoi a <=? 2147483647); [|discriminate]. intros E. injection E as <- <- <-. rewrite size_cons. lia.
  - destruct (_ <=? 2147483647); [|discriminate]. intros E. injection E as <- <- <-. unfold size. cbn [length]. rewrite app_length. lia.
Qed.
Lemma step_size : forall path c j rest s, (size (snd (fst (step path c j rest s))) (snd (step path c j rest s)) <= size j rest)%nat.
Proof.
  intros path c j rest s. unfold step.
  assert (NU : forall k d, (size (snd (fst (number k d j rest s))) (snd (number k d j rest s)) <= size j rest)%nat).
  { intros k d. unfold number. destruct (extract_number j rest) as [[[v j'] r]|] eqn:E; cbn; auto. apply number_size in E. auto. }
  assert (WO : forall f g, (size (snd (fst (words f g j rest s))) (snd (words f g j rest s)) <= size j rest)%nat).
  { intros f g. unfold words. pose proof (strings_size rest j). destruct (extract_strings rest). cbn in *. auto. }
  assert (OU : (size (snd (fst (output path j rest s))) (snd (output path j rest s)) <= size j rest)%nat).
  { unfold output. destruct (245 <? _)%nat; auto. destruct (extract_string rest) as [[t r]|] eqn:E; cbn; auto. apply (string_size rest t r j E). }
  assert (QU : forall s1, (size (snd (fst (match extract_string rest with Some (t, rest') => (quote_word t s1, j, rest') | None => (Done s1, j, rest) end))) (snd (match extract_string rest with Some (t, rest') => (quote_word t s1, j, rest') | None => (Done s1, j, rest) end)) <= size j rest)%nat).
  { intros s1. destruct (extract_string rest) as [[t r]|] eqn:E; cbn; auto. apply (string_size rest t r j E). }
  repeat (match goal with |- context [if ?b then _ else _] => destruct b; [solve [auto]|] end). destruct ((c =? 104) || (c =? 63)); auto.
Qed.
Lemma loop_ends : forall path fuel j rest s, (size j rest < fuel)%nat -> exists o, loop path fuel j rest s = Some o.
Proof.
  intros path. induction fuel as [|f IH]; intros j rest s L; [lia|]. cbn [loop]. destruct (next_option j rest) as [[[c j1] r1]|] eqn:E; [|eauto]. apply next_size in E.
  pose proof (step_size path c j1 r1 s) as S. destruct (step path c j1 r1 s) as [[o j2] r2]. cbn [fst snd] in S. destruct o as [s'|e|]; eauto. apply IH. lia.
Qed.
Lemma loop_mono : forall path fuel j rest s o, loop path fuel j rest s = Some o -> forall f2, (fuel <= f2)%nat -> loop path f2 j rest s = Some o.
Proof.
  intros path. induction fuel as [|f IH]; intros j rest s o E f2 L; [discriminate|]. destruct f2 as [|f2]; [lia|]. cbn [loop] in *. destruct (next_option j rest) as [[[c j1] r1]|]; auto.
  destruct (step path c j1 r1 s) as [[o' j2] r2]. destruct o'; auto. apply (IH _ _ _ _ E). lia.
Qed.
Lemma runs_fun : forall path j rest s o1 o2, runs path j rest s o1 -> runs path j rest s o2 -> o1 = o2.
Proof. intros path j rest s o1 o2 (f1 & E1) (f2 & E2). pose proof (loop_mono _ _ _ _ _ _ E1 (Nat.max f1 f2) (Nat.le_max_l _ _)). pose proof (loop_mono _ _ _ _ _ _ E2 (Nat.max f1 f2) (Nat.le_max_r _ _)). congruence. Qed.
Lemma parse_runs : forall path args s, exists o, parse_args path args s = Some o /\ (o = Undefined \/ runs path [] args s o).
Proof.
  intros path args s. unfold parse_args. destruct (255 <? size [] args)%nat; [eauto|]. destruct (loop_ends path (S (size [] args)) [] args s (Nat.lt_succ_diag_r _)) as (o & E). exists o. split; auto. right. exists (S (size [] args)). auto.
Qed.
Lemma parse_of_runs : forall path args s o, (size [] args <= 255)%nat -> runs path [] args s o -> parse_args path args s = Some o.
Proof.
  intros path args s o L R. unfold parse_args. replace (255 <? size [] args)%nat with false by (symmetry; apply Nat.ltb_ge; auto).
  destruct (loop_ends path (S (size [] args)) [] args s (Nat.lt_succ_diag_r _)) as (o' & E). rewrite E. f_equal. apply (runs_fun path [] args s); auto. exists (S (size [] args)). auto.
Qed.
Lemma runs_step : forall path j rest s c j1 r1, next_option j rest = Some (c, j1, r1) -> forall o,
  runs path j rest s o <-> match step path c j1 r1 s with (Done s', j2, r2) => runs path j2 r2 s' o | (e, _, _) => o = e end.
Proof.
  intros path j rest s c j1 r1 N o. split.
  - intros (f & E). destruct f as [|f]; [discriminate|]. cbn [loop] in E. rewrite N in E. destruct (step path c j1 r1 s) as [[o' j2] r2]. destruct o'; try (injection E; auto). exists f. auto.
  - destruct (step path c j1 r1 s) as [[o' j2] r2] eqn:S. destruct o'.
    + intros (f & E). exists (Datatypes.S f). cbn [loop]. rewrite N, S. auto.
    + intros ->. exists 1%nat. cbn [loop]. rewrite N, S. auto.
    + intros ->. exists 1%nat. cbn [loop]. rewrite N, S. auto.
Qed.

(** ** composition *)
Lemma strings_dashed : forall a2, dashed a2 -> extract_strings a2 = ([], a2).
Proof. intros [|a l] D; auto. destruct D as (r & ->). reflexivity. Qed.
Lemma strings_app : forall a1 a2, dashed a2 -> extract_strings (a1 ++ a2) = (fst (extract_strings a1), snd (extract_strings a1) ++ a2).
Proof.
  induction a1 as [|a a1 IH]; intros a2 D; cbn [app]; [rewrite strings_dashed; auto|]. destruct (dash_case a) as [(r & ->)|U]; [reflexivity|]. rewrite !strings_undashed by auto. rewrite IH by auto. reflexivity.
Qed.
Lemma string_app : forall a1 a2, dashed a2 -> extract_string (a1 ++ a2) = match extract_string a1 with Some (t, r) => Some (t, r ++ a2) | None => None end.
Proof.
  intros [|a a1] a2 D; cbn [app]; [destruct a2 as [|b a2]; auto; destruct D as (r & ->); reflexivity|]. destruct (dash_case a) as [(r & ->)|U]; [reflexivity|]. rewrite !string_undashed by auto. reflexivity.
Qed.
Lemma number_app : forall j a1 a2, dashed a2 -> extract_number j (a1 ++ a2) = match extract_number j a1 with Some (v, j', r) => Some (v, j', r ++ a2) | None => None end.
Proof.
  intros j a1 a2 D. unfold extract_number. destruct (span j) as [d q]. destruct d as [|c d].
  - destruct a1 as [|a a1]; cbn [app].
    + destruct a2 as [|b a2]; auto. destruct D as (r & ->). reflexivity.
    + destruct (negb _ && _); auto. destruct (_ <=? 2147483647); auto.
  - destruct (_ <=? 2147483647); auto.
Qed.
Lemma step_app : forall path c j a1 a2 s, dashed a2 -> step path c j (a1 ++ a2) s = (fst (fst (step path c j a1 s)), snd (fst (step path c j a1 s)), snd (step path c j a1 s) ++ a2).
Proof.
  intros path c j a1 a2 s D. unfold step.
  assert (NU : forall k d, number k d j (a1 ++ a2) s = (fst (fst (number k d j a1 s)), snd (fst (number k d j a1 s)), snd (number k d j a1 s) ++ a2)).
  { intros k d. unfold number. rewrite number_app by auto. destruct (extract_number j a1) as [[[v j'] r]|]; reflexivity. }
  assert (WO : forall f g, words f g j (a1 ++ a2) s = (fst (fst (words f g j a1 s)), snd (fst (words f g j a1 s)), snd (words f g j a1 s) ++ a2)).
  { intros f g. unfold words. rewrite strings_app by auto. destruct (extract_strings a1). reflexivity. }
  repeat (match goal with |- context [if ?b then _ else _] => destruct b; [first [solve [apply NU]|solve [apply WO]|reflexivity|idtac]|] end).
  - unfold output. destruct (245 <? _)%nat; [reflexivity|]. rewrite string_app by auto. destruct (extract_string a1) as [[t r]|]; reflexivity.
  - rewrite string_app by auto. destruct (extract_string a1) as [[t r]|]; reflexivity.
  - reflexivity.
Qed.
Lemma fetch_app : forall a1 a2, fetch (a1 ++ a2) = match fetch a1 with Some (c, j, r) => Some (c, j, r ++ a2) | None => fetch a2 end.
Proof.
  induction a1 as [|a a1 IH]; intros a2; auto. cbn [app]. destruct (dash_case a) as [(r & ->)|U].
  - destruct r as [|c r]; [cbn [fetch]; apply IH|reflexivity].
  - assert (G : forall l, fetch (a :: l) = fetch l). { intros l. cbn [fetch]. destruct a as [|x a]; auto. cbn in U. destruct x as [|p]; auto. do 6 (destruct p as [p|p|]; auto). congruence. } rewrite !G. apply IH.
Qed.
Lemma runs_app : forall path a2, dashed a2 -> forall n j a1 s o, (size j a1 < n)%nat -> (runs path j (a1 ++ a2) s o <-> exists o1, runs path j a1 s o1 /\ match o1 with Done s1 => runs path [] a2 s1 o | _ => o = o1 end).
Proof.
  intros path a2 D. induction n as [|n IH]; intros j a1 s o L; [lia|].
  destruct (next_option j a1) as [[[c j1] r1]|] eqn:N.
  - assert (N2 : next_option j (a1 ++ a2) = Some (c, j1, r1 ++ a2)). { destruct j as [|x j]; cbn in *; [rewrite fetch_app, N; auto|]. injection N as <- <- <-. auto. }
    rewrite (runs_step path j (a1 ++ a2) s c j1 (r1 ++ a2) N2). pose proof (next_size _ _ _ _ _ N) as L2.
    assert (R1 : forall o1, runs path j a1 s o1 <-> match step path c j1 r1 s with (Done s', j2, r2) => runs path j2 r2 s' o1 | (e, _, _) => o1 = e end) by (intros o1; apply (runs_step path j a1 s c j1 r1 N)).
    rewrite (step_app path c j1 r1 a2 s D). pose proof (step_size path c j1 r1 s) as L3. destruct (step path c j1 r1 s) as [[o' j2] r2]. cbn [fst snd] in *. destruct o' as [s'|e|].
    + rewrite IH by lia. split; intros (o1 & A & B); exists o1; (split; [apply R1; auto|auto]).
    + split; [intros ->; exists (Exit e); split; [apply R1; auto|auto]|]. intros (o1 & A & B). apply R1 in A. subst o1. auto.
    + split; [intros ->; exists Undefined; split; [apply R1; auto|auto]|]. intros (o1 & A & B). apply R1 in A. subst o1. auto.
  - destruct j as [|x j]; [|discriminate]. cbn in N. assert (R1 : forall o1, runs path [] a1 s o1 <-> o1 = Done s).
    { intros o1. split; [intros (f & E); destruct f as [|f]; [discriminate|]; cbn in E; rewrite N in E; congruence|]. intros ->. exists 1%nat. cbn. rewrite N. auto. }
    assert (R2 : runs path [] (a1 ++ a2) s o <-> runs path [] a2 s o).
    { split; intros (f & E); exists f; destruct f as [|f]; try discriminate; cbn [loop next_option] in *; [rewrite fetch_app, N in E; auto|rewrite fetch_app, N; auto]. }
    rewrite R2. split; [intros H; exists (Done s); split; [apply R1; auto|auto]|]. intros (o1 & A & B). apply R1 in A. subst. auto.
Qed.
Lemma runs_append : forall path a1 a2 s o, dashed a2 -> (runs path [] (a1 ++ a2) s o <-> exists o1, runs path [] a1 s o1 /\ match o1 with Done s1 => runs path [] a2 s1 o | _ => o = o1 end).
Proof. intros path a1 a2 s o D. apply (runs_app path a2 D (S (size [] a1))). lia. Qed.
