(** Proofs about the text matchers. *)
From Coq Require Import List NArith Bool Arith Lia.
From Verif Require Import Base StrModel StrSpec StrProofs StrProofs2 GlobModel GlobSpec GlobProofs TextModel TextSpec.
Import ListNotations.
Local Open Scope N_scope.

Lemma forall2_length : forall (R : N -> N -> Prop) a b, Forall2 R a b -> length a = length b.
Proof. induction 1; cbn; congruence. Qed.
Lemma fold_same_char : forall cl c d, fold_char cl c = fold_char cl d <-> same_char cl c d.
Proof.
  intros [|] c d; unfold fold_char, same_char; [|intuition discriminate].
  rewrite <- !tolower_lower. unfold tolower. destruct ((65 <=? c) && (c <=? 90)) eqn:C; destruct ((65 <=? d) && (d <=? 90)) eqn:D;
    rewrite ?andb_true_iff, ?andb_false_iff, ?N.leb_le, ?N.leb_gt in *; split; intros H; try (intuition lia); lia.
Qed.
Lemma lowered_fold : forall cl s, lowered cl s = fold_str cl s.
Proof. intros [|] s; unfold lowered, fold_str, fold_char; [apply map_ext; exact tolower_lower|symmetry; apply map_id]. Qed.
Lemma fold_same_text : forall cl a b, fold_str cl a = fold_str cl b <-> same_text cl a b.
Proof.
  unfold same_text, fold_str. intros cl. induction a as [|c a IH]; destruct b as [|d b]; cbn; split; intros H; try discriminate; try (inversion H; fail); auto.
  - injection H as H1 H2. constructor; [apply fold_same_char; auto|apply IH; auto].
  - inversion H; subst. f_equal; [apply fold_same_char; auto|apply IH; auto].
Qed.
Lemma equals_same : forall cl a b, str_equals cl a b = true <-> same_text cl a b.
Proof. intros. rewrite str_equals_fold. apply fold_same_text. Qed.
Lemma fold_app : forall cl a b, fold_str cl (a ++ b) = fold_str cl a ++ fold_str cl b. Proof. intros. apply map_app. Qed.
Lemma fold_length : forall cl a, length (fold_str cl a) = length a. Proof. intros. apply map_length. Qed.
Lemma fold_split : forall cl s a b, fold_str cl s = a ++ b -> exists x y, s = x ++ y /\ fold_str cl x = a /\ fold_str cl y = b.
Proof. intros cl s a b H. unfold fold_str in H. apply map_eq_app in H. destruct H as (x & y & -> & E1 & E2). exists x, y. auto. Qed.

Lemma contains_occurs : forall cl s e, contains cl s e = true <-> occurs cl e s.
Proof.
  intros cl s e. unfold contains. rewrite !lowered_fold. destruct (find_first (fold_str cl e) (fold_str cl s)) as [i|] eqn:F; split; intros H; auto; try discriminate.
  - apply find_first_some in F. destruct F as ((a & b & E & _) & _). apply fold_split in E. destruct E as (p & y & -> & _ & E).
    apply fold_split in E. destruct E as (q & r & -> & Q & _). exists p, q, r. split; auto. apply fold_same_text. auto.
  - exfalso. destruct H as (p & q & r & -> & Q). apply (find_first_none _ _ F (length p)). exists (fold_str cl p), (fold_str cl r).
    rewrite !fold_app, fold_length. apply fold_same_text in Q. rewrite Q. auto.
Qed.
Lemma startswith_begins : forall cl s e, startswith cl s e = true <-> begins_with cl e s.
Proof.
  intros cl s e. unfold startswith. rewrite !lowered_fold. destruct (length s <? length e)%nat eqn:L.
  - apply Nat.ltb_lt in L. split; [discriminate|]. intros (q & r & -> & Q). exfalso. apply forall2_length in Q. rewrite app_length in L. lia.
  - split.
    + destruct (find_first (fold_str cl e) (fold_str cl s)) as [[|i]|] eqn:F; try discriminate. intros _. apply find_first_some in F. destruct F as ((a & b & E & La) & _).
      destruct a; [|discriminate]. cbn in E. apply fold_split in E. destruct E as (q & r & -> & Q & _). exists q, r. split; auto. apply fold_same_text. auto.
    + intros (q & r & -> & Q). assert (A : at_pos (fold_str cl e) (fold_str cl (q ++ r)) 0).
      { exists [], (fold_str cl r). rewrite fold_app. apply fold_same_text in Q. rewrite Q. auto. }
      destruct (find_first (fold_str cl e) (fold_str cl (q ++ r))) as [i|] eqn:F; [|exfalso; exact (find_first_none _ _ F _ A)].
      apply find_first_some in F. destruct F as (_ & F). specialize (F _ A). destruct i; auto; lia.
Qed.
Lemma find_last_some : forall p s i, find_last p s = Some i -> at_pos p s i /\ forall j, at_pos p s j -> (j <= i)%nat.
Proof.
  intros p. induction s as [|c s IH]; intros i; cbn [find_last].
  - destruct (prefixb p []) eqn:P; [|discriminate]. intros H. injection H as <-. apply prefixb_iff in P. destruct P as (b & P). split; [exists [], b; auto|].
    intros j (a & b' & E & <-). destruct a; [auto|discriminate].
  - destruct (find_last p s) as [k|] eqn:F.
    + intros H. injection H as <-. destruct (IH _ eq_refl) as ((a & b & E & L) & M). split; [exists (c :: a), b; cbn; split; congruence|].
      intros j (a' & b' & E' & <-). destruct a' as [|x a']; cbn; [lia|]. cbn in E'. injection E' as -> E'. apply le_n_S. apply M. exists a', b'. auto.
    + destruct (prefixb p (c :: s)) eqn:P; [|discriminate]. intros H. injection H as <-. apply prefixb_iff in P. destruct P as (b & P). split; [exists [], b; auto|].
      intros j (a' & b' & E' & <-). destruct a' as [|x a']; [auto|]. exfalso. cbn in E'. injection E' as -> E'. clear IH P. subst s. 
      revert F. clear. induction a' as [|y a' IH]; cbn [app find_last].
      * destruct (p ++ b') eqn:Q; cbn [find_last]; [|destruct (find_last p l); [discriminate|]]; rewrite <- Q; (destruct (prefixb p (p ++ b')) eqn:PP; [discriminate|]); 
          (assert (prefixb p (p ++ b') = true) by (apply prefixb_iff; eexists; reflexivity)); congruence.
      * destruct (find_last p (a' ++ p ++ b')); [discriminate|]. intros _. apply IH. auto.
Qed.
Lemma find_last_at : forall p a b, find_last p (a ++ p ++ b) <> None.
Proof.
  intros p a b. induction a as [|y a IH]; cbn [app find_last].
  - assert (PP : prefixb p (p ++ b) = true) by (apply prefixb_iff; eexists; reflexivity).
    destruct (p ++ b) eqn:Q; cbn [find_last]; [|destruct (find_last p l); [discriminate|]]; rewrite PP; discriminate.
  - destruct (find_last p (a ++ p ++ b)); [discriminate|]. exfalso; auto.
Qed.
Lemma endswith_ends : forall cl s e, endswith cl s e = true <-> ends_with cl e s.
Proof.
  intros cl s e. unfold endswith. rewrite !lowered_fold. destruct (length s <? length e)%nat eqn:L.
  - apply Nat.ltb_lt in L. split; [discriminate|]. intros (p & q & -> & Q). exfalso. apply forall2_length in Q. rewrite app_length in L. lia.
  - apply Nat.ltb_ge in L. split.
    + destruct (find_last (fold_str cl e) (fold_str cl s)) as [i|] eqn:F; try discriminate. intros I. apply Nat.eqb_eq in I. apply find_last_some in F. destruct F as ((a & b & E & La) & _).
      assert (B : b = []). { apply (f_equal (@length N)) in E. rewrite !app_length, !fold_length in E. destruct b; auto. cbn in E. lia. }
      subst b. rewrite app_nil_r in E. apply fold_split in E. destruct E as (p & q & -> & _ & Q). exists p, q. split; auto. apply fold_same_text. auto.
    + intros (p & q & -> & Q). pose proof (forall2_length _ _ _ Q) as LQ. apply fold_same_text in Q.
      assert (A : at_pos (fold_str cl e) (fold_str cl (p ++ q)) (length p)). { exists (fold_str cl p), []. rewrite fold_app, fold_length, app_nil_r, Q. auto. }
      destruct (find_last (fold_str cl e) (fold_str cl (p ++ q))) as [i|] eqn:F.
      * apply find_last_some in F. destruct F as ((a & b & E & La) & M). apply M in A. apply Nat.eqb_eq. rewrite app_length in *.
        apply (f_equal (@length N)) in E. rewrite !app_length, !fold_length, app_length in E. lia.
      * exfalso. rewrite fold_app, Q in F. apply (find_last_at (fold_str cl e) (fold_str cl p) []). rewrite app_nil_r. auto.
Qed.

(** verdicts *)
Lemma fit_says : forall neg b P, (b = true <-> P) -> (Bool.eqb b (negb neg) = true <-> says neg P).
Proof. intros [|] b P H; unfold says; destruct b; cbn; intuition congruence. Qed.
Lemma se_ok : forall neg ci e a, text_match neg ci false (Se e) a = true <-> says neg (same_text ci a e).
Proof. intros. apply fit_says. apply equals_same. Qed.
Lemma substr_ok : forall neg ci e a, text_match neg ci false (Substr e) a = true <-> says neg (occurs ci e a).
Proof. intros. apply fit_says. apply contains_occurs. Qed.
Lemma starts_ok : forall neg ci e a, text_match neg ci false (StartsWith e) a = true <-> says neg (begins_with ci e a).
Proof. intros. apply fit_says. apply startswith_begins. Qed.
Lemma ends_ok : forall neg ci e a, text_match neg ci false (EndsWith e) a = true <-> says neg (ends_with ci e a).
Proof. intros. apply fit_says. apply endswith_ends. Qed.
Lemma eq_ok : forall neg ci e a, eq_text neg ci false e a = true <-> says neg (same_text ci a e).
Proof. intros. apply fit_says. apply equals_same. Qed.

Lemma we_ok : forall neg ci e a, ~ In 0 e -> ~ In 0 a -> (text_match neg ci false (We e) a = true <-> says neg (glob ci e a)).
Proof.
  intros neg ci e a E A. apply fit_says. cbn [text_result looked_at]. rewrite !c_str_id by auto.
  destruct (wildcard_match_correct ci e a) with (fuel := S (S (length e) * (S (length a) * S (length a)) + length a)) as (b & -> & B).
  - apply Forall_forall. intros x H ->. auto.
  - apply Forall_forall. intros x H ->. auto.
  - lia.
  - exact B.
Qed.

(** squashing *)
Lemma blank_white : forall c, blank c = true <-> is_white c.
Proof. intros c. unfold blank, is_white. rewrite !orb_true_iff, !N.eqb_eq. tauto. Qed.
Lemma blank_not : forall c, blank c = false <-> ~ is_white c.
Proof. intros c. rewrite <- blank_white. destruct (blank c); intuition congruence. Qed.
Lemma words_nil : forall ws, words [] ws -> ws = [].
Proof. intros ws H. inversion H as [s0 A B C|s0 w0 A B C D|s0 w0 c0 t0 ws0 A B C D E0 F]; subst; auto; exfalso; repeat match goal with E : _ ++ _ = [] |- _ => apply app_eq_nil in E; destruct E end; subst; auto. Qed.
Lemma words_lead : forall c s ws, is_white c -> words (c :: s) ws -> words s ws.
Proof.
  intros c s ws C H. inversion H; subst.
  - inversion H0; subst. constructor; auto.
  - destruct s0 as [|x s0]; cbn in *.
    + subst. inversion H3; subst. contradiction.
    + injection H0 as -> <-. inversion H1; subst. constructor; auto.
  - destruct s0 as [|x s0]; cbn in *.
    + destruct w as [|y w]; [exfalso; auto|]. cbn in H0. injection H0 as -> <-. inversion H3; subst. contradiction.
    + injection H0 as -> <-. inversion H1; subst. constructor; auto.
Qed.
Lemma words_trail : forall t ws, words t ws -> forall s c, t = s ++ [c] -> is_white c -> words s ws.
Proof.
  induction 1; intros s' c0 E C; subst.
  - apply Forall_app in H. constructor. tauto.
  - exfalso. destruct (exists_last H0) as (w' & x & ->). rewrite app_assoc in E. apply app_inj_tail in E. destruct E as (_ & ->). apply Forall_app in H1. destruct H1 as (_ & H1). inversion H1; subst. contradiction.
  - destruct t as [|y t] using rev_ind.
    + apply words_nil in H3. subst ws. rewrite app_assoc in E. apply app_inj_tail in E. destruct E as (<- & _). constructor; auto.
    + clear IHt. replace (s ++ w ++ c :: t ++ [y]) with ((s ++ w ++ c :: t) ++ [y]) in E by (rewrite <- !app_assoc; reflexivity). apply app_inj_tail in E. destruct E as (<- & ->).
      constructor; auto. eapply IHwords; eauto.
Qed.
Lemma words_strip : forall a t b ws, Forall (fun c => blank c = true) a -> Forall (fun c => blank c = true) b -> words (a ++ t ++ b) ws -> words t ws.
Proof.
  induction a as [|c a IH]; intros t b ws A B H.
  - clear A. cbn in H. revert H. induction b as [|x b IHb] using rev_ind; intros H; [rewrite app_nil_r in H; auto|]. apply Forall_app in B. destruct B as (B1 & B2). inversion B2; subst.
    apply IHb; auto. eapply words_trail; [exact H|rewrite app_assoc; reflexivity|apply blank_white; auto].
  - inversion A; subst. apply (IH t b); auto. eapply words_lead; [|exact H]. apply blank_white. auto.
Qed.
Notation join := joined (only parsing).
Lemma loop_word : forall w r sp, w <> [] -> Forall (fun c => ~ is_white c) w -> unquoted w -> squash_loop false false false sp (w ++ r) = w ++ squash_loop false false false 0 r.
Proof.
  induction w as [|c w IH]; intros r sp N W U; [exfalso; auto|]. inversion W; subst. cbn [app]. rewrite loop_step. rewrite (proj2 (blank_not c)) by auto.
  destruct (U c (or_introl eq_refl)) as (_ & U1 & U2). unfold flip. apply N.eqb_neq in U1. apply N.eqb_neq in U2. rewrite U1, U2. cbn [andb negb]. f_equal.
  destruct w as [|d w]; [reflexivity|]. apply IH; [discriminate|auto|]. intros x Hx. apply U. right. auto.
Qed.
Lemma loop_bl : forall bl r n, Forall is_white bl -> exists m, squash_loop false false false (S n) (bl ++ r) = squash_loop false false false (S m) r.
Proof. induction bl as [|c bl IH]; intros r n W; [exists n; auto|]. inversion W; subst. cbn [app]. rewrite loop_step, (proj2 (blank_white c)) by auto. cbn [negb andb]. apply IH; auto. Qed.
Lemma unquoted_app : forall a b, unquoted (a ++ b) -> unquoted a /\ unquoted b.
Proof. intros a b U. split; intros c H; apply U; apply in_or_app; auto. Qed.
Lemma loop_words : forall t ws, words t ws -> unquoted t -> (forall a c, t = a ++ [c] -> ~ is_white c) -> forall n, squash_loop false false false (S n) t = join ws.
Proof.
  induction 1; intros U L n.
  - destruct s as [|x s] using rev_ind; [reflexivity|]. exfalso. apply (L s x); auto. apply Forall_app in H. destruct H as (_ & H). inversion H; auto.
  - apply unquoted_app in U. destruct (loop_bl s w n H) as (m & ->). rewrite <- (app_nil_r w) at 1. rewrite loop_word; try tauto. cbn. apply app_nil_r.
  - apply unquoted_app in U. destruct U as (_ & U). apply unquoted_app in U. destruct U as (U1 & U2). destruct (loop_bl s (w ++ c :: t) n H) as (m & ->). rewrite loop_word; auto.
    rewrite loop_step, (proj2 (blank_white c)) by auto. cbn [negb andb].
    rewrite IHwords.
    + destruct ws as [|w' ws]; [|reflexivity]. exfalso. inversion H3; subst.
      destruct t as [|x t] using rev_ind; [apply (L (s ++ w) c); [rewrite <- app_assoc; reflexivity|auto]|].
      apply (L (s ++ w ++ c :: t) x); [rewrite <- !app_assoc; cbn; rewrite <- ?app_assoc; reflexivity|]. apply Forall_app in H4. destruct H4 as (_ & H4). inversion H4; auto.
    + intros x Hx. apply U2. right. auto.
    + intros a x E. subst t. apply (L (s ++ w ++ c :: a) x). rewrite <- !app_assoc. reflexivity.
Qed.
Lemma squash_words : forall s ws, unquoted s -> words s ws -> squash false s = join ws.
Proof.
  intros s ws U W. assert (NN : nonul s). { intros H. apply U in H. tauto. }
  destruct (trim_split s NN) as (a & b & E & A & B). pose proof W as W'. rewrite E in W'. apply words_strip in W'; auto.
  assert (U' : unquoted (trim s)). { intros c H. apply U. rewrite E. apply in_or_app. right. apply in_or_app. auto. }
  assert (L : forall a c, trim s = a ++ [c] -> ~ is_white c). { intros x c H. apply blank_not. eapply trim_last; eauto. }
  pose proof (loop_words _ _ W' U' L 0) as Q. unfold squash. rewrite <- Q. clear - NN.
  destruct (trim s) as [|c t] eqn:T; [reflexivity|]. rewrite !loop_step, (trim_head _ _ _ NN T). reflexivity.
Qed.
Lemma words_solid : forall s ws, words s ws -> Forall (fun w => w <> [] /\ Forall (fun c => ~ is_white c) w) ws.
Proof. induction 1; auto. Qed.
Lemma white_char : forall cl c d, same_char cl c d -> (is_white c <-> is_white d).
Proof. intros cl c d [->|(_ & H)]; [tauto|]. unfold is_white. lia. Qed.
Lemma join_split : forall cl w w' r r', Forall (fun c => ~ is_white c) w -> Forall (fun c => ~ is_white c) w' -> same_text cl (w ++ 32 :: r) (w' ++ 32 :: r') -> same_text cl w w' /\ same_text cl r r'.
Proof.
  unfold same_text. intros cl. induction w as [|c w IH]; intros w' r r' W W' H; destruct w' as [|d w']; cbn in H; inversion H; subst.
  - split; auto.
  - exfalso. apply Forall_inv in W'. apply W'. match goal with X : same_char _ _ _ |- _ => apply (white_char _ _ _ X) end. left. auto.
  - exfalso. apply Forall_inv in W. apply W. match goal with X : same_char _ _ _ |- _ => apply (white_char _ _ _ X) end. left. auto.
  - apply Forall_inv_tail in W. apply Forall_inv_tail in W'. match goal with X : Forall2 _ (w ++ _) _ |- _ => apply IH in X; auto end. split; [constructor; tauto|tauto].
Qed.
Lemma join_one : forall cl w w' r, Forall (fun c => ~ is_white c) w -> ~ same_text cl w (w' ++ 32 :: r) /\ ~ same_text cl (w' ++ 32 :: r) w.
Proof.
  intros cl w w' r W. assert (I : In 32 (w' ++ 32 :: r)) by (apply in_or_app; right; left; auto). unfold same_text. rewrite Forall_forall in W. split; intros H.
  - revert W. induction H; intros W; [destruct I|]. destruct I as [->|I]; [|apply IHForall2; auto; intros; apply W; right; auto]. apply (W x); [left; auto|]. eapply white_char; [exact H|left; auto].
  - revert W. induction H; intros W; [destruct I|]. destruct I as [->|I]; [|apply IHForall2; auto; intros; apply W; right; auto]. apply (W y); [left; auto|]. apply (white_char _ _ _ H). left; auto.
Qed.
Lemma join_same : forall cl ws ws', Forall (fun w => w <> [] /\ Forall (fun c => ~ is_white c) w) ws -> Forall (fun w => w <> [] /\ Forall (fun c => ~ is_white c) w) ws' ->
  (same_text cl (join ws) (join ws') <-> Forall2 (same_text cl) ws ws').
Proof.
  intros cl. induction ws as [|w ws IH]; intros ws' A B.
  - destruct ws' as [|w' ws']; [cbn; split; constructor|]. split; intros H; [|inversion H]. exfalso. inversion B; subst. destruct H2 as (N & _). destruct w' as [|c w']; auto. destruct ws'; cbn in H; inversion H.
  - inversion A; subst. destruct H1 as (N & W). destruct ws' as [|w' ws'].
    + split; intros H; [|inversion H]. exfalso. destruct w as [|c w]; auto. destruct ws; cbn in H; inversion H.
    + inversion B; subst. destruct H1 as (N' & W'). destruct ws as [|v ws]; destruct ws' as [|v' ws'].
      * cbn. split; intros H; [repeat constructor; auto|inversion H; auto].
      * split; intros H; [exfalso; revert H; cbn [joined]; apply join_one; auto|inversion H; subst; inversion H7].
      * split; intros H; [exfalso; revert H; cbn [joined]; apply join_one; auto|inversion H; subst; inversion H7].
      * change (join (w :: v :: ws)) with (w ++ 32 :: join (v :: ws)). change (join (w' :: v' :: ws')) with (w' ++ 32 :: join (v' :: ws')). split; intros H.
        -- apply join_split in H; auto. constructor; [tauto|]. apply IH; tauto.
        -- inversion H; subst. unfold same_text. apply Forall2_app; auto. constructor; [left; auto|]. apply IH; auto.
Qed.
Lemma se_words : forall neg ci e a we wa, unquoted a -> unquoted e -> words a wa -> words e we -> (text_match neg ci true (Se e) a = true <-> says neg (Forall2 (same_text ci) wa we)).
Proof.
  intros neg ci e a we wa UA UE WA WE. apply fit_says. cbn [text_result looked_at]. rewrite (squash_words a wa), (squash_words e we); auto. rewrite equals_same. apply join_same; eapply words_solid; eauto.
Qed.
Lemma eq_words : forall neg ci e a we wa, unquoted a -> unquoted e -> words a wa -> words e we -> (eq_text neg ci true e a = true <-> says neg (Forall2 (same_text ci) wa we)).
Proof. exact se_words. Qed.
Lemma words_total : forall s, exists ws, words s ws.
Proof.
  induction s as [|c s (ws & IH)]; [exists []; constructor; auto|]. destruct (blank c) eqn:B.
  - apply blank_white in B. exists ws. inversion IH; subst.
    + constructor; auto.
    + change (c :: s0 ++ w) with ((c :: s0) ++ w). constructor; auto.
    + change (c :: s0 ++ w ++ c0 :: t) with ((c :: s0) ++ w ++ c0 :: t). constructor; auto.
  - apply blank_not in B. inversion IH; subst.
    + destruct s as [|d s].
      * exists [[c]]. change [c] with ([] ++ [c]). constructor; auto; try discriminate; try (constructor; auto; fail).
      * inversion H; subst. exists [[c]]. change (c :: d :: s) with ([] ++ [c] ++ d :: s). constructor; auto; try discriminate; try (constructor; auto; fail).
    + destruct s0 as [|d s0].
      * exists [c :: w]. change (c :: [] ++ w) with ([] ++ (c :: w)). constructor; auto; try discriminate; try (constructor; auto; fail).
      * inversion H; subst. exists [[c]; w]. change (c :: (d :: s0) ++ w) with ([] ++ [c] ++ d :: (s0 ++ w)). constructor; auto; try discriminate; try (constructor; auto; fail).
    + destruct s0 as [|d s0].
      * exists ((c :: w) :: ws0). change (c :: [] ++ w ++ c0 :: t) with ([] ++ (c :: w) ++ c0 :: t). constructor; auto; try discriminate; try (constructor; auto; fail).
      * inversion H; subst. exists ([c] :: w :: ws0). change (c :: (d :: s0) ++ w ++ c0 :: t) with ([] ++ [c] ++ d :: (s0 ++ w ++ c0 :: t)). constructor; auto; try discriminate; constructor; auto.
Qed.

(** a tab or newline in the pattern *)
Lemma squash_no : forall a c, ~ In 0 a -> In c (squash false a) -> c <> 9 /\ c <> 10.
Proof. intros a c N H. destruct (squash_squashed false a N) as (S1 & _). specialize (S1 c H). unfold is_blank in S1. split; intros ->; discriminate S1; reflexivity. Qed.
Lemma same_in : forall cl a b d, same_text cl a b -> (d = 9 \/ d = 10) -> In d b -> In d a.
Proof. intros cl a b d H D I. induction H; [destruct I|]. destruct I as [->|I]; [|right; auto]. left. destruct H as [->|(_ & H)]; auto. lia. Qed.
Lemma pattern_white : forall neg ci e a d, ~ In 0 a -> (d = 9 \/ d = 10) -> In d e ->
  text_match neg ci true (Substr e) a = neg /\ text_match neg ci true (StartsWith e) a = neg /\ text_match neg ci true (EndsWith e) a = neg.
Proof.
  intros neg ci e a d N D I.
  assert (X : forall x p, incl x (squash false a) -> same_text ci x p -> p = e -> False).
  { intros x p INC S ->. pose proof (same_in _ _ _ _ S D I) as J. apply INC in J. apply squash_no in J; auto. lia. }
  assert (F : forall b : bool, (b = true -> False) -> Bool.eqb b (negb neg) = neg) by (intros [|] Hb; [exfalso; auto|destruct neg; reflexivity]).
  repeat split; apply F; cbn [text_result looked_at].
  - intros H. apply contains_occurs in H. destruct H as (p & q & r & E & S). apply (X q e); auto. rewrite E. intros x Hx. apply in_or_app. right. apply in_or_app. auto.
  - intros H. apply startswith_begins in H. destruct H as (q & r & E & S). apply (X q e); auto. rewrite E. intros x Hx. apply in_or_app. auto.
  - intros H. apply endswith_ends in H. destruct H as (q & r & E & S). apply (X r e); auto. rewrite E. intros x Hx. apply in_or_app. auto.
Qed.
Lemma find_words : forall neg ci e a wa, unquoted a -> words a wa ->
  (text_match neg ci true (Substr e) a = true <-> says neg (occurs ci e (joined wa))) /\
  (text_match neg ci true (StartsWith e) a = true <-> says neg (begins_with ci e (joined wa))) /\
  (text_match neg ci true (EndsWith e) a = true <-> says neg (ends_with ci e (joined wa))).
Proof.
  intros neg ci e a wa U W. pose proof (squash_words a wa U W) as Q.
  split; [|split]; apply (fit_says neg); cbn [text_result looked_at]; rewrite Q; [apply contains_occurs|apply startswith_begins|apply endswith_ends].
Qed.
(** null pointers *)
Lemma null_expected : forall neg ci sq a, eq_pointer neg ci sq None a = true <-> says neg (a = None).
Proof. intros. apply fit_says. destruct a; intuition discriminate. Qed.
Lemma null_expected_string : forall neg ci sq a, eq_pointer_string neg ci sq None a = true <-> says neg False.
Proof. intros [] ci sq a; cbn; intuition discriminate. Qed.
Lemma pointer_texts : forall neg ci e a, ~ In 0 e -> ~ In 0 a -> (eq_pointer neg ci false (Some e) (Some a) = true <-> says neg (same_text ci a e)).
Proof. intros neg ci e a E A. unfold eq_pointer, to_string. rewrite !c_str_id; auto. apply eq_ok. Qed.
Lemma pointer_string : forall neg ci e a, ~ In 0 e -> (eq_pointer_string neg ci false (Some e) a = true <-> says neg (same_text ci a e)).
Proof. intros neg ci e a E. unfold eq_pointer_string. rewrite !c_str_id; auto. apply eq_ok. Qed.
Lemma null_actual : forall neg ci e, ~ In 0 e -> (eq_pointer neg ci false (Some e) None = true <-> says neg (same_text ci (str "(null)") e)).
Proof. intros neg ci e E. unfold eq_pointer, to_string. rewrite !c_str_id; auto. apply eq_ok. Qed.
