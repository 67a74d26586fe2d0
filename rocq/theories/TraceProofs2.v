(** Proofs about the texts of backtraces (C78). *)
From Coq Require Import List NArith ZArith Bool Arith Lia.
From Verif Require Import Base FilterModel MemcmpModel MemcmpSpec TextModel TextSpec TextProofs SplitModel SplitSpec SplitProofs DumpModel DumpSpec DumpProofs2 NmModel NmSpec NmProofs NmProofs2 BlockProofs
  StubModel StubSpec StubProofs2 TraceModel TraceSpec TraceProofs.
Import ListNotations.
Local Open Scope N_scope.

Lemma trimmed_unique : forall s t t', trimmed_end s t -> trimmed_end s t' -> t = t'.
Proof.
  assert (G : forall t w t' w' : bytes, t ++ w = t' ++ w' -> Forall blank w -> (forall x c, t' = x ++ [c] -> ~ blank c) -> (length t <= length t')%nat -> t = t').
  { intros t w t' w' E B K L. assert (P : t' = t ++ skipn (length t) t').
    { rewrite <- (firstn_skipn (length t) t') at 1. f_equal. rewrite <- (firstn_app_2 0 t w), Nat.add_0_r || idtac.
      apply (f_equal (firstn (length t))) in E. rewrite firstn_app, firstn_all, Nat.sub_diag, firstn_O, app_nil_r in E. rewrite firstn_app in E.
      replace (length t - length t')%nat with O in E by lia. rewrite firstn_O, app_nil_r in E. symmetry. exact E. }
    set (d := skipn (length t) t') in *. clearbody d. subst t'. rewrite <- app_assoc in E. apply app_inv_head in E. subst w.
    destruct d as [|c d] using rev_ind; [rewrite app_nil_r; reflexivity|]. exfalso. apply (K (t ++ d) c); [rewrite app_assoc; reflexivity|].
    rewrite Forall_forall in B. apply B. apply in_or_app. left. apply in_or_app. right. left. reflexivity. }
  intros s t t' (w & E & B & K) (w' & E' & B' & K'). destruct (Nat.le_ge_cases (length t) (length t')) as [L|L].
  - apply (G t w t' w'); congruence || assumption.
  - symmetry. apply (G t' w' t w); congruence || assumption.
Qed.
Lemma trimmed_newline : forall s t, trimmed_end s t -> trimmed_end (s ++ [10]) t.
Proof.
  intros s t (w & -> & B & K). exists (w ++ [10]). split; [symmetry; apply app_assoc|]. split; [|exact K]. apply Forall_app. split; [exact B|].
  constructor; [|constructor]. unfold blank. lia.
Qed.
Lemma first_line_ok : forall k l out, heads out l -> (length l < k)%nat -> first_line k out = l \/ first_line k out = l ++ [10].
Proof.
  intros k l out (A & H) L. assert (G : forall r, (r = [] \/ exists q, r = 10 :: q) -> first_line k (l ++ r) = l \/ first_line k (l ++ r) = l ++ [10]).
  { intros r R. clear H. revert k L. induction l as [|c l IH]; intros k L; (destruct k as [|k]; [cbn in L; lia|]).
    - cbn [app]. destruct R as [->|(q & ->)]; [left; reflexivity|right; reflexivity].
    - cbn [app first_line]. destruct (N.eqb_spec c 10) as [->|D]; [exfalso; apply A; left; reflexivity|].
      destruct (IH ltac:(intros I; apply A; right; exact I) k ltac:(cbn in L; lia)) as [->| ->]; [left|right]; reflexivity. }
  destruct H as [->|(r & ->)]; [rewrite <- (app_nil_r l) at 1 3; apply G; left; reflexivity|apply G; right; exists r; reflexivity].
Qed.
Lemma same_exact : forall q e, same_text false q e <-> q = e.
Proof.
  intros q e. unfold same_text. split.
  - intros H. induction H as [|c d q e C H IH]; [reflexivity|]. f_equal; [|exact IH]. destruct C as [C|(C & _)]; [exact C|discriminate].
  - intros ->. induction e; constructor; [left; reflexivity|assumption].
Qed.
Lemma within_occurs : forall e s, TextSpec.occurs false e s <-> within e s.
Proof.
  intros e s. unfold TextSpec.occurs, within. split.
  - intros (p & q & r & -> & E). apply same_exact in E. subst. exists p, r. reflexivity.
  - intros (a & b & ->). exists a, e, b. split; [reflexivity|]. apply same_exact. reflexivity.
Qed.
Lemma contains_within : forall s e, contains false s e = true <-> within e s.
Proof. intros. rewrite contains_occurs. apply within_occurs. Qed.
Lemma within_newline : forall l e, ~ In 10 e -> e <> [] -> within e (l ++ [10]) -> within e l.
Proof.
  intros l e N10 NE (a & b & E). destruct b as [|x b] using rev_ind.
  - rewrite app_nil_r in E. destruct e as [|y e] using rev_ind; [contradiction|]. rewrite app_assoc in E. apply app_inj_tail in E. destruct E as (_ & <-). exfalso. apply N10. apply in_or_app. right. left. reflexivity.
  - rewrite !app_assoc in E. apply app_inj_tail in E. destruct E as (-> & _). exists a, b. rewrite app_assoc. reflexivity.
Qed.
Lemma within_more : forall l e, within e l -> within e (l ++ [10]).
Proof. intros l e (a & b & ->). exists a, (b ++ [10]). rewrite !app_assoc. reflexivity. Qed.
(* the command *)
Lemma lower_digits_hexed : forall x a, hexed x a -> forall k acc, (length x <= k)%nat -> lower_digits k 16 a acc = x ++ acc.
Proof.
  assert (C : forall c d, hex_lower c = Some d -> d < 16 /\ (if d <? 10 then 48 + d else 87 + d) = c).
  { intros c d H. unfold hex_lower in H. destruct (N.leb_spec 48 c), (N.leb_spec c 57), (N.leb_spec 97 c), (N.leb_spec c 102); cbn in H; inversion H; subst; (split; [lia|]); match goal with |- (if ?b then _ else _) = _ => destruct b eqn:Q end; try apply N.ltb_lt in Q; try apply N.ltb_ge in Q; lia. }
  intros x a H. induction H as [c d D|t v c d H IH V D]; intros k acc K.
  - destruct k as [|k]; [cbn in K; lia|]. destruct (C c d D) as (L & E). cbn [lower_digits]. rewrite N.mod_small by exact L. rewrite E. apply N.ltb_lt in L. rewrite L. reflexivity.
  - rewrite app_length in K. cbn [length] in K. destruct k as [|k]; [lia|]. destruct (C c d D) as (L & E). cbn [lower_digits].
    rewrite (N.mul_comm 16 v). rewrite N.add_comm, N.mod_add, N.mod_small, E by lia. rewrite N.div_add, N.div_small, N.add_0_l by lia.
    replace (d + v * 16 <? 16) with false by (symmetry; apply N.ltb_ge; lia). rewrite IH by lia. rewrite <- app_assoc. reflexivity.
Qed.
Lemma hexed_16 : forall x a, hexed x a -> a < 2 ^ 64 -> (length x <= 16)%nat.
Proof.
  intros x a H L. destruct (Nat.le_gt_cases (length x) 16) as [G|G]; [exact G|]. exfalso.
  assert (K : forall x a, hexed x a -> (1 < length x)%nat -> 16 ^ N.of_nat (length x - 1) <= a).
  { clear. intros x a H. induction H as [c d D|t v c d H IH V D]; intros K; [cbn in K; lia|]. rewrite app_length in *. cbn [length] in *.
    replace (length t + 1 - 1)%nat with (length t) by lia. destruct (Nat.eq_dec (length t) 1) as [->|Z]; [change (16 ^ N.of_nat 1) with 16; lia|].
    assert (T : (1 < length t)%nat). { destruct t as [|y t]; [|cbn in *; lia]. inversion H; subst. destruct t; discriminate. }
    specialize (IH T). replace (N.of_nat (length t)) with (N.succ (N.of_nat (length t - 1))) by lia. rewrite N.pow_succ_r'. lia. }
  specialize (K x a H ltac:(lia)). assert (2 ^ 64 <= 16 ^ N.of_nat (length x - 1)) by (change (2 ^ 64) with (16 ^ 16); apply N.pow_le_mono_r; lia). lia.
Qed.
Lemma command_ok : forall path x a, hexed x a -> a < 2 ^ 64 -> command path a = str "addr2line -C -a -s -p -f -e " ++ path ++ str " -i " ++ x.
Proof. intros path x a H L. unfold command. rewrite (lower_digits_hexed x a H) by (apply (hexed_16 x a); assumption). rewrite app_nil_r. reflexivity. Qed.
Lemma addr2line_says : forall run path x a t, hexed x a -> a < 2 ^ 64 -> (length path <= 207)%nat -> says run (str "addr2line -C -a -s -p -f -e " ++ path ++ str " -i " ++ x) t -> addr2line run path a = Some (Some t).
Proof.
  intros run path x a t H L P (out & l & R & HD & LL & W & T & TE). unfold addr2line. cbv zeta. rewrite (command_ok _ _ _ H L).
  replace (256 <=? _)%nat with false; [|symmetry; apply Nat.leb_gt; rewrite !app_length; pose proof (hexed_16 x a H L); change (length (str "addr2line -C -a -s -p -f -e ")) with 28%nat; change (length (str " -i ")) with 4%nat; lia].
  rewrite R. assert (O : out <> []).
  { intros ->. destruct HD as (_ & [E|(r & E)]); [subst l|destruct l; discriminate]. destruct T as (w & E & _). destruct t; [contradiction|discriminate]. }
  destruct out as [|o out]; [contradiction|]. set (O' := o :: out) in *. f_equal. cbv zeta.
  assert (F : contains false (first_line 1023 O') (str "??:") = false /\ strip_right (first_line 1023 O') = t).
  { destruct (first_line_ok 1023 l O' HD ltac:(apply Nat.lt_succ_r; exact LL)) as [E|E]; rewrite E.
    - split; [destruct (contains _ _ _) eqn:Q; [exfalso; apply W, contains_within, Q|reflexivity]|]. apply (trimmed_unique l); [apply strip_right_ok|exact T].
    - split; [destruct (contains _ _ _) eqn:Q; [exfalso; apply W; apply within_newline; [cbn; intuition discriminate|discriminate|apply contains_within, Q]|reflexivity]|].
      apply (trimmed_unique (l ++ [10])); [apply strip_right_ok|apply trimmed_newline, T]. }
  destruct F as (-> & ->). reflexivity.
Qed.
Lemma addr2line_silent : forall run path x a, hexed x a -> a < 2 ^ 64 -> (length path <= 207)%nat -> silent run (str "addr2line -C -a -s -p -f -e " ++ path ++ str " -i " ++ x) -> addr2line run path a = Some None.
Proof.
  intros run path x a H L P S1. unfold addr2line. cbv zeta. rewrite (command_ok _ _ _ H L).
  replace (256 <=? _)%nat with false; [|symmetry; apply Nat.leb_gt; rewrite !app_length; pose proof (hexed_16 x a H L); change (length (str "addr2line -C -a -s -p -f -e ")) with 28%nat; change (length (str " -i ")) with 4%nat; lia].
  destruct S1 as [->|[->|(out & l & -> & HD & LL & W)]]; [reflexivity|reflexivity|]. destruct out as [|o out]; [reflexivity|]. set (O' := o :: out) in *. f_equal. cbv zeta.
  replace (contains false (first_line 1023 O') (str "??:")) with true; [reflexivity|]. symmetry. apply contains_within.
  destruct (first_line_ok 1023 l O' HD ltac:(apply Nat.lt_succ_r; exact LL)) as [E|E]; rewrite E; [exact W|apply within_more, W].
Qed.
Lemma frame_text_ok : forall run readable path lu l main d cmd at_ line s n t, loaded lu l main d -> (length path <= 207)%nat -> asked path d at_ cmd -> described at_ s n line -> text_of run readable cmd n line t ->
  frame_text run readable path (ptr_to_addr lu l main) (at_, line) = Some t.
Proof.
  intros run readable path lu l main d cmd at_ line s n t LD P (a & x & A & AT & X & ->) D T. unfold frame_text. cbn [fst snd]. rewrite <- AT, (ptr_loaded lu l main d a LD A).
  destruct (extract_ok _ _ _ _ D) as (E & _).
  destruct T as [n line t T|n line t S1 NE R LT TE|n line S1 NE R|line S1].
  - rewrite (addr2line_says _ _ _ _ _ X A P T). destruct T as (_ & _ & _ & _ & _ & _ & _ & TE). destruct t; [contradiction|reflexivity].
  - rewrite (addr2line_silent _ _ _ _ X A P S1), E. cbn [fst]. unfold demangle. destruct n; [contradiction|]. rewrite R. apply Nat.lt_succ_r in LT. apply Nat.ltb_lt in LT. rewrite LT. cbn [option_map]. destruct t; [contradiction|reflexivity].
  - rewrite (addr2line_silent _ _ _ _ X A P S1), E. cbn [fst]. unfold demangle. destruct n; [contradiction|]. rewrite R. reflexivity.
  - rewrite (addr2line_silent _ _ _ _ X A P S1), E. reflexivity.
Qed.
Lemma outermost_ok : forall at_ line s n, described at_ s n line -> (outermost (at_, line) = true <-> entry_point n).
Proof.
  intros at_ line s n D. destruct (extract_ok _ _ _ _ D) as (E & _). unfold outermost, entry_point. cbn [snd]. rewrite E. cbn [fst]. rewrite orb_true_iff, !bytes_eqb_eq. reflexivity.
Qed.
Lemma texts_ok : forall run readable path lu l main d cmd fs ts, loaded lu l main d -> (length path <= 207)%nat -> (forall at_, at_ < 2 ^ 64 -> asked path d at_ (cmd at_)) -> understood fs ->
  told run readable cmd fs ts -> texts run readable path (ptr_to_addr lu l main) fs = Some ts.
Proof.
  intros run readable path lu l main d cmd fs ts LD P C U T. induction T as [|at_ line fs s n t D EP T|at_ line fs s n t ts D EP T T' IH]; [reflexivity| |];
    cbn [texts]; inversion U as [|? ? (A & _) U']; subst; cbn [fst] in A; rewrite (frame_text_ok run readable path lu l main d (cmd at_) at_ line s n t LD P (C at_ A) D T).
  - apply (outermost_ok _ _ _ _ D) in EP. rewrite EP. reflexivity.
  - destruct (outermost (at_, line)) eqn:O; [exfalso; apply EP, (outermost_ok _ _ _ _ D), O|]. rewrite (IH U'). reflexivity.
Qed.
Lemma stack_ok : forall run readable path lu l main d cmd shift fs ts, loaded lu l main d -> (length path <= 207)%nat -> (forall at_, at_ < 2 ^ 64 -> asked path d at_ (cmd at_)) -> understood fs ->
  told run readable cmd (skipn shift fs) ts -> stack_texts run readable path lu l main shift fs = Some ts.
Proof.
  intros. unfold stack_texts. eapply texts_ok; eauto. unfold understood in *. rewrite Forall_forall in *. intros f F. apply H2. rewrite <- (firstn_skipn shift fs). apply in_or_app. right. exact F.
Qed.
