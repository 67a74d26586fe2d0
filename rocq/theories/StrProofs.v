From Coq Require Import List NArith Bool Arith Lia.
From Verif Require Import Base StrModel StrSpec.
Import ListNotations.
Local Open Scope N_scope.

(** *** find *)
Lemma prefixb_iff : forall p s, prefixb p s = true <-> exists b, s = p ++ b.
Proof.
  induction p as [|c p IH]; intros s; cbn [prefixb]; [split; [intros _; exists s; reflexivity|auto]|]. destruct s as [|x s]; [split; [discriminate|intros (b & H); discriminate]|].
  rewrite andb_true_iff, N.eqb_eq, IH. split; [intros (-> & b & ->); exists b; reflexivity|intros (b & H); inversion H; eauto].
Qed.
Lemma find_first_some : forall p s i, find_first p s = Some i -> at_pos p s i /\ forall j, at_pos p s j -> (i <= j)%nat.
Proof.
  intros p. induction s as [|x s IH]; intros i; cbn [find_first].
  - destruct (prefixb p []) eqn:P; [|discriminate]. intros H. inversion H; subst. split; [|intros; lia]. apply prefixb_iff in P. destruct P as (b & E). exists [], b. auto.
  - destruct (prefixb p (x :: s)) eqn:P.
    + intros H. inversion H; subst. split; [|intros; lia]. apply prefixb_iff in P. destruct P as (b & E). exists [], b. auto.
    + destruct (find_first p s) as [k|] eqn:F; [|discriminate]. cbn. intros H. inversion H; subst. destruct (IH k eq_refl) as [(a & b & E & L) M]. split.
      * exists (x :: a), b. cbn. rewrite E, L. auto.
      * intros j (a' & b' & E' & L'). destruct a' as [|y a'].
        -- exfalso. assert (prefixb p (x :: s) = true) by (apply prefixb_iff; exists b'; auto). congruence.
        -- cbn in E', L'. inversion E'; subst y. assert (k <= length a')%nat; [|lia]. apply M. exists a', b'. auto.
Qed.
Lemma find_first_none : forall p s, find_first p s = None -> forall i, ~ at_pos p s i.
Proof.
  intros p. induction s as [|x s IH]; cbn [find_first]; intros H i (a & b & E & L).
  - destruct (prefixb p []) eqn:P; [discriminate|]. destruct a; [|discriminate]. assert (prefixb p [] = true) by (apply prefixb_iff; eauto). congruence.
  - destruct (prefixb p (x :: s)) eqn:P; [discriminate|]. destruct (find_first p s) eqn:F; [discriminate|]. destruct a as [|y a].
    + assert (prefixb p (x :: s) = true) by (apply prefixb_iff; eauto). congruence.
    + cbn in E. inversion E; subst y. apply (IH eq_refl (length a)). exists a, b. auto.
Qed.
(** *** replace_all *)
Lemma app_length_inv : forall (A : Type) (a b c d : list A), a ++ b = c ++ d -> length a = length c -> a = c /\ b = d.
Proof. induction a as [|x a IH]; intros b [|y c] d E L; cbn in *; try discriminate; auto. inversion E; subst. destruct (IH b c d) as [-> ->]; auto. Qed.
Lemma loop_ok : forall from to, from <> [] -> forall fuel done s, (length s < fuel)%nat -> exists r, replace_loop from to fuel (done ++ s) (length done) = Some (done ++ r) /\ replaced from to s r.
Proof.
  intros from to NE. induction fuel as [|f IH]; intros done s F; [lia|]. cbn [replace_loop]. unfold find_from. rewrite app_length.
  replace (length done <=? length done + length s)%nat with true by (symmetry; apply Nat.leb_le; lia). rewrite skipn_app, skipn_all, Nat.sub_diag. cbn [skipn app].
  destruct (find_first from s) as [i|] eqn:FF; cbn [option_map].
  - destruct (find_first_some from s i FF) as [(a & b & E & L) M]. subst s i.
    assert (X : firstn (length a + length done) (done ++ a ++ from ++ b) ++ to ++ skipn (length a + length done + length from) (done ++ a ++ from ++ b) = (done ++ a ++ to) ++ b).
    { rewrite (app_assoc done a). rewrite firstn_app, firstn_all2 by (rewrite app_length; lia). rewrite app_length. replace (length a + length done - (length done + length a))%nat with 0%nat by lia. cbn [firstn]. rewrite app_nil_r.
      rewrite skipn_app. rewrite skipn_all2 by (rewrite app_length; lia). rewrite app_length. replace (length a + length done + length from - (length done + length a))%nat with (length from) by lia. rewrite skipn_app, skipn_all, Nat.sub_diag. cbn [app skipn]. rewrite <- !app_assoc. reflexivity. }
    rewrite X. replace (length a + length done + length to)%nat with (length (done ++ a ++ to)) by (rewrite !app_length; lia).
    destruct (IH (done ++ a ++ to) b) as (r & Er & R). { rewrite !app_length in F. destruct from; [congruence|]. cbn in F. lia. }
    rewrite Er. exists (a ++ to ++ r). split; [rewrite <- !app_assoc; reflexivity|]. constructor; auto.
  - exists s. split; auto. constructor. apply find_first_none. auto.
Qed.
Lemma replace_all_ok : forall from to s, from <> [] -> replace_loop from to (S (length s)) s 0 = Some (replace_all from to s) /\ replaced from to s (replace_all from to s).
Proof. intros from to s NE. destruct (loop_ok from to NE (S (length s)) [] s) as (r & E & R); [lia|]. unfold replace_all. cbn [app length] in E. rewrite E. auto. Qed.
Lemma replaced_unique : forall from to, from <> [] -> forall s r1, replaced from to s r1 -> forall r2, replaced from to s r2 -> r1 = r2.
Proof.
  intros from to NE. induction 1 as [s N|a s r1 M R IH]; intros r2 H2.
  - inversion H2 as [s' N'|a s' r M R]; subst; auto. exfalso. apply (N (length a)). exists a, s'. auto.
  - inversion H2 as [s' N'|a' s' r M' R' E]; subst.
    + exfalso. apply (N' (length a)). exists a, s. auto.
    + assert (L : length a = length a').
      { assert (length a <= length a')%nat by (apply M; exists a', s'; auto). assert (length a' <= length a)%nat by (apply M'; exists a, s; auto). lia. }
      destruct (app_length_inv _ a' (from ++ s') a (from ++ s)) as [-> E']; auto. destruct (app_length_inv _ from s' from s) as [_ ->]; auto. rewrite (IH r); auto.
Qed.
Lemma replace_empty : forall to fuel done s, replace_loop [] to fuel (done ++ s) (length done) = None.
Proof.
  intros to. induction fuel as [|f IH]; intros done s; [reflexivity|]. cbn [replace_loop]. unfold find_from. rewrite app_length.
  replace (length done <=? length done + length s)%nat with true by (symmetry; apply Nat.leb_le; lia). assert (FF : find_first [] (skipn (length done) (done ++ s)) = Some O) by (destruct (skipn (length done) (done ++ s)); reflexivity).
  rewrite FF. cbn [option_map Nat.add]. rewrite firstn_app, firstn_all, Nat.sub_diag. cbn [firstn length]. rewrite app_nil_r, Nat.add_0_r, skipn_app, skipn_all, Nat.sub_diag. cbn [skipn app].
  rewrite app_assoc, <- app_length. apply IH.
Qed.

(** *** unescape *)
Definition esc_ok (p : piece) : Prop := match p with Plain c => c <> 92 | Esc e => e <> 92 end.
Definition sub (x y : N) (p : piece) : piece := match p with Esc e => if e =? x then Plain y else p | _ => p end.
Lemma two_at : forall x l i, x <> 92 -> Forall esc_ok l -> at_pos [92; x] (written l) i -> exists l1 l2, l = l1 ++ Esc x :: l2 /\ length (written l1) = i.
Proof.
  intros x l i X F. revert i. induction F as [|p l P F IH]; intros i (a & b & E & L); unfold written in *; cbn [map concat] in E.
  - destruct a; discriminate.
  - destruct p as [c|e]; cbn [esc_ok] in P.
    + cbn in E. destruct a as [|y a]; [cbn in E; inversion E; congruence|]. cbn in E. inversion E as [[E1 E2]]. destruct (IH (length a)) as (l1 & l2 & -> & L1); [exists a, b; auto|].
      exists (Plain c :: l1), l2. split; [cbn; congruence|]. unfold written. cbn [map concat app length] in *. lia.
    + cbn in E. destruct a as [|y [|z a]]; cbn in E.
      * inversion E as [[E1 E2]]. exists [], l. subst. split; auto.
      * inversion E. congruence.
      * inversion E as [[E1 E2 E3]]. destruct (IH (length a)) as (l1 & l2 & -> & L1); [exists a, b; auto|]. exists (Esc e :: l1), l2. split; [cbn; congruence|]. unfold written. cbn [map concat app length] in *. lia.
Qed.
Lemma written_app : forall a b, written (a ++ b) = written a ++ written b. Proof. intros. unfold written. rewrite map_app, concat_app. reflexivity. Qed.
Lemma sub_app : forall x y a b, map (sub x y) (a ++ b) = map (sub x y) a ++ map (sub x y) b. Proof. intros. apply map_app. Qed.
Lemma sub_none : forall x y l, ~ In (Esc x) l -> map (sub x y) l = l.
Proof. induction l as [|p l IH]; intros H; auto. cbn. rewrite IH by (intro; apply H; right; auto). f_equal. destruct p as [c|e]; auto. cbn. destruct (N.eqb_spec e x); auto. exfalso. apply H. left. congruence. Qed.
Lemma split_first : forall x (l : list piece), In (Esc x) l -> exists l1 l2, l = l1 ++ Esc x :: l2 /\ ~ In (Esc x) l1.
Proof.
  induction l as [|p l IH]; intros H; [destruct H|]. assert (D : p = Esc x \/ p <> Esc x) by (destruct p as [c|e]; [right; discriminate|destruct (N.eq_dec e x); [left; congruence|right; congruence]]).
  destruct D as [->|D]; [exists [], l; auto|]. destruct H as [H|H]; [congruence|]. destruct (IH H) as (l1 & l2 & -> & NI). exists (p :: l1), l2. split; auto. intros [A|A]; auto.
Qed.
Lemma sub_replaced : forall x y l, x <> 92 -> Forall esc_ok l -> replaced [92; x] [y] (written l) (written (map (sub x y) l)).
Proof.
  intros x y l X. remember (length l) as n. revert l Heqn. induction n as [n IH] using lt_wf_ind. intros l En F.
  assert (DI : In (Esc x) l \/ ~ In (Esc x) l). { clear. induction l as [|p l [IH|IH]]; [right; auto|left; right; auto|]. destruct p as [c|e]; [right; intros [H|H]; [discriminate|auto]|]. destruct (N.eq_dec e x) as [->|N]; [left; left; auto|right; intros [H|H]; [congruence|auto]]. }
  destruct DI as [I|I].
  - destruct (split_first x l I) as (l1 & l2 & -> & NI). rewrite sub_app, sub_none by auto. rewrite !written_app. cbn [map]. change (Esc x :: l2) with ([Esc x] ++ l2). rewrite written_app. change (written [Esc x]) with [92; x].
    replace (sub x y (Esc x)) with (Plain y) by (cbn; rewrite N.eqb_refl; auto). change (Plain y :: map (sub x y) l2) with ([Plain y] ++ map (sub x y) l2). rewrite written_app. change (written [Plain y]) with [y].
    apply RNext.
    + intros i A. change ([92; x] ++ written l2) with (written [Esc x] ++ written l2) in A. rewrite <- !written_app in A. apply two_at in A; auto. destruct A as (m1 & m2 & E & L). rewrite <- L.
      assert (P : exists q, m1 = l1 ++ q).
      { clear - E NI. cbn in E. revert m1 m2 E. induction l1 as [|p l1 IH]; intros m1 m2 E; [exists m1; reflexivity|]. destruct m1 as [|q m1]; cbn in E; inversion E as [[E1 E2]].
        - exfalso. apply NI. left. auto.
        - subst q. destruct (IH ltac:(intro; apply NI; right; auto) m1 m2 E2) as (q & ->). exists q. reflexivity. }
      destruct P as (q & ->). rewrite written_app, app_length. lia.
    + apply (IH (length l2)); auto; [rewrite En, app_length; cbn; lia|]. apply Forall_app in F. destruct F as [_ F]. inversion F; auto.
  - rewrite sub_none by auto. apply RNone. intros i A. apply two_at in A; auto. destruct A as (l1 & l2 & -> & _). apply I, in_or_app. right. left. auto.
Qed.
Lemma sub_ok : forall x y l, y <> 92 -> Forall esc_ok l -> Forall esc_ok (map (sub x y) l).
Proof. intros x y l Y F. rewrite Forall_map. eapply Forall_impl; [|exact F]. intros [c|e] P; cbn in *; auto. destruct (e =? x); auto. Qed.
Lemma replace_sub : forall x y l, x <> 92 -> Forall esc_ok l -> replace_all [92; x] [y] (written l) = written (map (sub x y) l).
Proof. intros x y l X F. eapply replaced_unique; [|apply replace_all_ok|apply sub_replaced; auto]; discriminate. Qed.
Lemma unescape_ok : forall l t, denotes l t -> unescape (written l) = t.
Proof.
  intros l t D. assert (F : Forall esc_ok l).
  { clear - D. induction D as [|p c l t H D IH]; constructor; auto. destruct p as [x|e]; cbn in *; [tauto|]. intros ->. discriminate. }
  unfold unescape. repeat (rewrite replace_sub; [|discriminate|repeat (apply sub_ok; [discriminate|]); exact F]).
  rewrite !map_map. set (g := fun x => _ : piece).
  assert (W : written (map g l) = t /\ ~ In 92 t).
  { clear F. induction D as [|p c l t H D [IH NI]]; [split; [reflexivity|intros []]|]. unfold written in *. cbn [map concat]. rewrite IH. unfold g. destruct p as [x|e].
    - destruct H as [H ->]. cbn [sub app]. split; auto. intros [A|A]; auto.
    - unfold meaning in H. cbn [sub].
      destruct (N.eqb_spec e 98); [subst; inversion H; subst; split; [reflexivity|intros [A|A]; [discriminate|auto]]|]. cbn [sub].
      destruct (N.eqb_spec e 102); [subst; inversion H; subst; split; [reflexivity|intros [A|A]; [discriminate|auto]]|]. cbn [sub].
      destruct (N.eqb_spec e 110); [subst; inversion H; subst; split; [reflexivity|intros [A|A]; [discriminate|auto]]|]. cbn [sub].
      destruct (N.eqb_spec e 114); [subst; inversion H; subst; split; [reflexivity|intros [A|A]; [discriminate|auto]]|]. cbn [sub].
      destruct (N.eqb_spec e 116); [subst; inversion H; subst; split; [reflexivity|intros [A|A]; [discriminate|auto]]|]. cbn [sub].
      destruct (N.eqb_spec e 34); [subst; inversion H; subst; split; [reflexivity|intros [A|A]; [discriminate|auto]]|]. discriminate. }
  destruct W as [-> NI]. apply (replaced_unique [92; 92] [92]) with (s := t); [discriminate|apply replace_all_ok; discriminate|]. apply RNone. intros i (a & b & -> & _). apply NI, in_or_app. right. left. auto.
Qed.
