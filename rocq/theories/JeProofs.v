(** Proofs about Je. *)
From Coq Require Import List NArith ZArith Bool Arith Lia.
From Verif Require Import Base FilterModel StrModel ExprModel ExprSpec JsonModel JsonSpec JsonProofs2 JsonProofs3 JsonProofs4 JsonProofs5 PrintModel PrintSpec PrintProofs FailModel MatcherModel JeModel JeSpec.
Import ListNotations.

Section Ops.
Variable num : Type.
Variable ev : bytes -> option num.
Variable show : num -> bytes.
Variable near : num -> num -> bool.
Variable pat : bool -> bytes -> bytes -> bool.
Variable fold : bool.
Notation jm := (jmatches num ev show near pat fold).
Notation leaf := (je num ev show near pat fold).

Lemma je_ctx e s c c' a : c_neg c = c_neg c' -> c_ci c = c_ci c' -> leaf e s c a = leaf e s c' a.
Proof. intros N C. unfold je, fit. rewrite N, C. reflexivity. Qed.
Definition is_not (o : oper) : bool := match o with OpNot => true | _ => false end.
Lemma ops_neg ops : forall f, f_neg (fold_left apply_op ops f) = xorb (f_neg f) (Nat.odd (count_occ Bool.bool_dec (map is_not ops) true)).
Proof.
  induction ops as [|o ops IH]; intro f; [cbn; rewrite xorb_false_r; reflexivity|]. cbn [fold_left map count_occ]. rewrite IH.
  destruct o; cbn [is_not]; try (destruct (Bool.bool_dec false true); [discriminate|]; cbn [apply_op f_neg]; try reflexivity).
  - destruct (Bool.bool_dec true true); [|congruence]. rewrite Nat.odd_succ, <- Nat.negb_odd. cbn [apply_op f_neg]. destruct (f_neg f), (Nat.odd _); reflexivity.
  - destruct (e =? -1)%Z; reflexivity.
Qed.
Definition is_caseless (o : oper) : bool := match o with OpCaseless => true | _ => false end.
Lemma ops_ci ops : forall f, f_ci (fold_left apply_op ops f) = f_ci f || existsb is_caseless ops.
Proof.
  induction ops as [|o ops IH]; intro f; [cbn; rewrite orb_false_r; reflexivity|]. cbn [fold_left existsb]. rewrite IH. destruct o; cbn [apply_op f_ci is_caseless]; try reflexivity.
  - rewrite orb_true_r. reflexivity.
  - destruct (e =? -1)%Z; reflexivity.
Qed.
Fixpoint caselessb (m : jmatcher) : bool := match m with Je _ _ => false | Operated ops m' => existsb is_caseless ops || caselessb m' | Not_ m' => caselessb m' end.
Lemma caselessb_iff m : caselessb m = true <-> caseless m.
Proof.
  induction m as [e s|ops m IH|m IH]; cbn; [split; [discriminate|contradiction]| |exact IH]. rewrite orb_true_iff, IH. apply or_iff_compat_r. rewrite existsb_exists. split.
  - intros (o & I & E). destruct o; try discriminate. exact I.
  - intro I. exists OpCaseless. auto.
Qed.
Lemma reduce m : forall c a, exists c', jm m c a = leaf (expectation m) (place m) c' a /\ c_neg c' = xorb (c_neg c) (Nat.odd (turns m)) /\ c_ci c' = c_ci c || caselessb m.
Proof.
  induction m as [e s|ops m IH|m IH]; intros c a; cbn [jmatches expectation place turns caselessb].
  - exists c. rewrite xorb_false_r, orb_false_r. auto.
  - destruct (IH (configure (fold_left apply_op ops flags0) c) a) as (c' & E & N & C). exists c'. split; [exact E|]. cbn [configure c_neg c_ci] in N, C. rewrite ops_neg in N. rewrite ops_ci in C. cbn [flags0 f_neg f_ci] in N, C.
    change (map (fun o : oper => match o with OpNot => true | _ => false end) ops) with (map is_not ops). rewrite N, C, Nat.odd_add. split.
    + destruct (Nat.odd (count_occ bool_dec (map is_not ops) true)), (c_neg c), (Nat.odd (turns m)); reflexivity.
    + destruct (existsb is_caseless ops), (c_ci c), (caselessb m); reflexivity.
  - destruct (IH (upd_neg c (negb (c_neg c))) a) as (c' & E & N & C). exists c'. split; [exact E|]. cbn [upd_neg c_neg c_ci] in N, C. rewrite N, C. split; [|reflexivity].
    rewrite Nat.odd_succ, <- Nat.negb_odd. destruct (c_neg c), (Nat.odd (turns m)); reflexivity.
Qed.
Lemma case_bool m cl : case_of m cl -> cl = caselessb m.
Proof.
  intros [A B]. destruct cl, (caselessb m) eqn:E; try reflexivity.
  - specialize (A eq_refl). apply caselessb_iff in A. congruence.
  - apply B, caselessb_iff, E.
Qed.
(** the leaf's end *)
Definition concluded (c : ctx) (ret : option Z) : verdict :=
  match ret with None => Exception_ | Some r => if (r <? 0)%Z then Refused true else if fit c (r =? 0)%Z then Accepted else Refused false end.
Lemma concluded_decided m c (b : bool) : c_neg c = Nat.odd (turns m) -> decided m (b = true) (concluded c (Some (if b then 0 else 1)%Z)).
Proof using.
  clear num ev show near pat fold.
  intro N. unfold concluded, decided, fit. rewrite N.
  pose proof (Nat.odd_spec (turns m)) as OS. pose proof (Nat.even_spec (turns m)) as ES. rewrite <- Nat.negb_odd in ES. 
  destruct b; cbn; destruct (Nat.odd (turns m)); cbn in OS, ES; cbn.
  - right. split; [reflexivity|]. tauto.
  - left. split; [reflexivity|]. tauto.
  - left. split; [reflexivity|]. split; [discriminate|]. intro H. apply ES in H. discriminate.
  - right. split; [reflexivity|]. split; [discriminate|]. intro H. apply OS in H. discriminate.
Qed.
Lemma je_selected e s c a a' : s <> [] -> json_select num ev show fold (c_ci c) a s = Text a' -> leaf e s c a = concluded c (json_match ev near pat (c_ci c) e a').
Proof. intros NS E. unfold je. destruct s; [congruence|]. rewrite E. reflexivity. Qed.
Lemma je_plain e c a : leaf e [] c a = concluded c (json_match ev near pat (c_ci c) e a).
Proof. reflexivity. Qed.
Lemma decided_iff m P Q v : (P <-> Q) -> decided m P v -> decided m Q v.
Proof. intros I [[E D]|[E D]]; [left|right]; (split; [exact E|]); rewrite <- I; exact D. Qed.
Lemma reduce0 m a : exists c, jm m ctx0 a = leaf (expectation m) (place m) c a /\ c_neg c = Nat.odd (turns m) /\ c_ci c = caselessb m.
Proof. destruct (reduce m ctx0 a) as (c & E & N & C). exists c. split; [exact E|]. cbn in N, C. rewrite N, C. split; [destruct (Nat.odd (turns m)); reflexivity|reflexivity]. Qed.
End Ops.

Section Documents.
Variable A : alg.
Variable show : R A -> bytes.
Variable near : R A -> R A -> bool.
Variable pat : bool -> bytes -> bytes -> bool.
Variable fold : bool.
Notation jm := (jmatches (R A) (evaluate A) show near pat fold).

Lemma whole_document m cl ve va a : case_of m cl -> place m = [] -> document A ve (expectation m) -> document A va a -> decided m (meets (R A) near pat cl ve va) (jm m ctx0 a).
Proof.
  intros K P De Da. apply case_bool in K. subst cl. destruct (reduce0 (R A) (evaluate A) show near pat fold m a) as (c & -> & N & C). rewrite P, je_plain, C, (json_match_documents A near pat _ ve va _ _ De Da).
  eapply decided_iff; [|apply concluded_decided; exact N]. apply jmatch_meets.
Qed.
Lemma part_document m cl l ve va w a : case_of m cl -> path_text l (place m) -> document A ve (expectation m) -> document A va a -> path cl va l w -> showable A show w ->
  decided m (meets (R A) near pat cl ve w) (jm m ctx0 a).
Proof.
  intros K P De Da PW SW. destruct (place m) as [|c0 s0] eqn:EP.
  { assert (l = []) by (apply steps_of_text in P; symmetry; exact P). subst l. inversion PW. subst. apply whole_document; assumption. }
  apply case_bool in K. subst cl. destruct (reduce0 (R A) (evaluate A) show near pat fold m a) as (c & -> & N & C). rewrite EP.
  rewrite (je_selected (R A) (evaluate A) show near pat fold _ _ c a (select_text show fold w)); [|discriminate|].
  - rewrite C. unfold json_match. rewrite (tree_of_document A ve _ De), (select_parses A show fold w SW).
    eapply decided_iff; [|apply concluded_decided; exact N]. apply jmatch_meets.
  - unfold json_select. rewrite (tree_of_document A va _ Da), C.
    assert (F : follow (caselessb m) (Some va) (steps_of (c0 :: s0)) = Found w) by (rewrite (steps_of_text _ _ P); apply follow_found; [eapply path_text_proper; exact P|exact PW]).
    rewrite F. reflexivity.
Qed.
Lemma empty_tree : tree_of (evaluate A) [] = Done Absent [].
Proof. reflexivity. Qed.
Lemma missing_part m cl l s u ve va a : case_of m cl -> path_text (l ++ [s]) (place m) -> document A ve (expectation m) -> document A va a -> path cl va l u -> (forall w, ~ stepped cl u s w) ->
  decided m False (jm m ctx0 a).
Proof.
  intros K P De Da PU NW. apply case_bool in K. subst cl. destruct (reduce0 (R A) (evaluate A) show near pat fold m a) as (c & -> & N & C).
  assert (NE : place m <> []). { intro E. rewrite E in P. apply steps_of_text in P. cbn in P. destruct l; discriminate. }
  rewrite (je_selected (R A) (evaluate A) show near pat fold _ _ c a []); [|exact NE|].
  - rewrite C. unfold json_match. rewrite (tree_of_document A ve _ De), empty_tree. rewrite (absent_never (R A) near pat _ ve Absent) by (right; reflexivity).
    eapply decided_iff; [|apply (concluded_decided m c false); exact N]. split; [discriminate|contradiction].
  - unfold json_select. rewrite (tree_of_document A va _ Da), C.
    assert (F : follow (caselessb m) (Some va) (steps_of (place m)) = Missing) by (rewrite (steps_of_text _ _ P); apply follow_missing; [eapply path_text_proper; exact P|exists l, s, u; auto]).
    rewrite F. reflexivity.
Qed.
Lemma missing_early m cl l s q u va a : case_of m cl -> path_text (l ++ s :: q) (place m) -> q <> [] -> document A va a -> path cl va l u -> (forall w, ~ stepped cl u s w) -> jm m ctx0 a = Segfault.
Proof.
  intros K P NQ Da PU NW. apply case_bool in K. subst cl. destruct (reduce0 (R A) (evaluate A) show near pat fold m a) as (c & -> & N & C).
  unfold je. destruct (place m) as [|c0 s0] eqn:EP; [apply steps_of_text in P; cbn in P; destruct l; discriminate|].
  unfold json_select. rewrite (tree_of_document A va _ Da), C.
  assert (F : follow (caselessb m) (Some va) (steps_of (c0 :: s0)) = NullDeref) by (rewrite (steps_of_text _ _ P); apply follow_null; [eapply path_text_proper; exact P|exists l, s, q, u; auto]).
  rewrite F. reflexivity.
Qed.
(** ill-formed ones *)
Definition bad (s : bytes) : Prop := doubled A s.
Lemma ill_formed m ve a : document A ve (expectation m) -> doubled A a -> jm m ctx0 a = Refused true.
Proof.
  intros De B. destruct (reduce0 (R A) (evaluate A) show near pat fold m a) as (c & -> & _ & C). destruct (match_refused A near pat (c_ci c) ve (expectation m) a De) as [H _]. destruct (H B) as [H1 _].
  destruct (place m) as [|c0 s0] eqn:EP; [rewrite je_plain, H1; reflexivity|].
  rewrite (je_selected (R A) (evaluate A) show near pat fold _ _ c a a); [rewrite H1; reflexivity|discriminate|]. unfold json_select. rewrite (refused_doubled A a B). reflexivity.
Qed.
Lemma ill_expected m va a : place m = [] -> document A va a -> doubled A (expectation m) -> jm m ctx0 a = Refused true.
Proof.
  intros EP Da B. destruct (reduce0 (R A) (evaluate A) show near pat fold m a) as (c & -> & _ & C). destruct (match_refused A near pat (c_ci c) va a (expectation m) Da) as [H _]. destruct (H B) as [_ H1].
  rewrite EP, je_plain, H1. reflexivity.
Qed.
Lemma unclosed_never m ve a : document A ve (expectation m) -> unclosed a -> jm m ctx0 a = Refused true \/ jm m ctx0 a = Exception_.
Proof.
  intros De B. destruct (reduce0 (R A) (evaluate A) show near pat fold m a) as (c & -> & _ & C). destruct (match_refused A near pat (c_ci c) ve (expectation m) a De) as [_ H].
  destruct (place m) as [|c0 s0] eqn:EP.
  - rewrite je_plain. destruct (H B) as [[H1 _]|[H1 _]]; rewrite H1; auto.
  - destruct (refused_unclosed (R A) (evaluate A) a B) as [T|T].
    + rewrite (je_selected (R A) (evaluate A) show near pat fold _ _ c a a); [|discriminate|unfold json_select; rewrite T; reflexivity]. destruct (H B) as [[H1 _]|[H1 _]]; rewrite H1; auto.
    + unfold je, json_select. rewrite T. auto.
Qed.
(** assertions *)
Lemma asserted_spec oppose m a : asserted (R A) (evaluate A) show near pat fold oppose m a = match jm m ctx0 a with Accepted => Some (negb oppose) | Refused _ => Some oppose | _ => None end.
Proof. unfold asserted, failure. destruct (jm m ctx0 a), oppose; reflexivity. Qed.
(** the JE macro *)
Lemma je_macro l e selector ve va w a : path_text l selector -> document A ve e -> document A va a -> path false va l w -> showable A show w ->
  exists b, assert_je (R A) (evaluate A) show near pat fold e a selector = Some b /\ (b = true <-> meets (R A) near pat false ve w).
Proof.
  intros P De Da PW SW. unfold assert_je. rewrite asserted_spec.
  destruct (part_document (Je e selector) false l ve va w a) as [[-> D]|[-> D]]; try assumption; [split; [discriminate|contradiction]| |]; cbn [turns] in D.
  - exists true. split; [reflexivity|]. split; [intros _; apply D; exists O; reflexivity|reflexivity].
  - exists false. split; [reflexivity|]. split; [discriminate|]. intro M. apply D in M. destruct M as [k E]. lia.
Qed.
End Documents.
