(** Proofs about checks of conditions. *)
From Coq Require Import List ZArith Bool Arith Lia.
From Verif Require Import NumModel NumSpec NumProofs CondModel CondSpec.
Import ListNotations.

Section Any.
Context {A : Type}.

Definition grow {B} (rest : list (bop * B)) (t : tree B) : tree B := fold_left (fun t p => attach t (fst p) (snd p)) rest t.

Lemma E_le : forall B n m (t : tree B), E n t -> n <= m -> E m t.
Proof. intros B n m t H L. destruct H; [constructor|]. apply E_binary with (m := m0); auto; lia. Qed.
Lemma ops_below : forall B n (t : tree B), E n t -> Forall (fun p => level (fst p) <= n) (snd (written t)).
Proof.
  intros B n t H. induction H as [|n o l r m L Hl IHl M Hr IHr]; [constructor|]. cbn [written snd]. apply Forall_app. split.
  - eapply Forall_impl; [|exact IHl]. cbn. intros. lia.
  - constructor; [cbn; lia|]. eapply Forall_impl; [|exact IHr]. cbn. intros. lia.
Qed.
Lemma grow_right : forall B (rest : list (bop * B)) o l r, Forall (fun p => level (fst p) < level o) rest -> grow rest (Bin o l r) = Bin o l (grow rest r).
Proof.
  intros B rest. unfold grow. induction rest as [|[p x] rest IH]; intros o l r F; [reflexivity|]. inversion F as [|? ? F1 F2]. subst. cbn [fold_left fst snd] in *.
  replace (attach (Bin o l r) p x) with (Bin o l (attach r p x)); [apply IH; auto|]. cbn [attach]. apply Nat.ltb_lt in F1. rewrite F1. reflexivity.
Qed.
Lemma attach_root : forall B n (t : tree B) o x, E n t -> n <= level o -> attach t o x = Bin o t (Leaf x).
Proof.
  intros B n t o x H L. destruct H as [n y|n o' l r m L' _ _ _]; [reflexivity|]. cbn [attach].
  replace (level o <? level o') with false; [reflexivity|]. symmetry. apply Nat.ltb_ge. lia.
Qed.
(** the grammar is unambiguous *)
Lemma parse_written : forall B n (t : tree B), E n t -> parse (fst (written t)) (snd (written t)) = t.
Proof.
  intros B n t H. induction H as [|n o l r m L Hl IHl M Hr IHr]; [reflexivity|]. cbn [written fst snd]. unfold parse in *. rewrite fold_left_app. rewrite IHl. cbn [fold_left fst snd].
  rewrite (attach_root _ _ _ _ _ Hl) by lia. fold (@grow B). unfold grow. change (grow (snd (written r)) (Bin o l (Leaf (fst (written r)))) = Bin o l r).
  rewrite grow_right; [unfold grow; rewrite IHr; reflexivity|]. eapply Forall_impl; [|apply ops_below; exact Hr]. cbn. intros. lia.
Qed.
Lemma attach_E : forall B (t : tree B) n o x, E n t -> E (Nat.max n (level o)) (attach t o x) /\ written (attach t o x) = (fst (written t), snd (written t) ++ [(o, x)]).
Proof.
  intros B t. induction t as [y|o' l IHl r IHr]; intros n o x H.
  - split; [|reflexivity]. apply E_binary with (m := 0); try constructor; [lia|]. destruct o; cbn; lia.
  - inversion H as [|n' o'' l' r' m L Hl M Hr]. subst. cbn [attach]. destruct (level o <? level o') eqn:C.
    + apply Nat.ltb_lt in C. destruct (IHr m o x Hr) as [I1 I2]. split.
      * apply E_binary with (m := Nat.max m (level o)); auto; lia.
      * cbn [written]. rewrite I2. cbn [fst snd]. rewrite <- app_assoc. reflexivity.
    + apply Nat.ltb_ge in C. split; [|reflexivity]. apply E_binary with (m := 0); [lia| |destruct o; cbn; lia|constructor].
      apply E_binary with (m := m); auto.
Qed.
Lemma level_bound : forall o, level o <= 15.
Proof. destruct o; cbn; lia. Qed.
Lemma parse_means : forall B (x : B) rest, means x rest (parse x rest).
Proof.
  intros B x rest. unfold means, parse. assert (forall rest (t : tree B), E 15 t -> E 15 (grow rest t) /\ written (grow rest t) = (fst (written t), snd (written t) ++ rest)) as G.
  { clear. induction rest as [|[o y] rest IH]; intros t H; [cbn; rewrite app_nil_r; destruct (written t); auto|].
    change (grow ((o, y) :: rest) t) with (grow rest (attach t o y)). destruct (attach_E B t 15 o y H) as [A1 A2]. pose proof (level_bound o). destruct (IH (attach t o y) (E_le B _ 15 _ A1 ltac:(lia))) as [I1 I2]. split; [exact I1|].
    rewrite I2, A2. cbn [fst snd]. rewrite <- app_assoc. reflexivity. }
  destruct (G rest (Leaf x) (E_operand _ _)) as [G1 G2]. split; auto.
Qed.
Lemma means_parse : forall B (x : B) rest t, means x rest t -> t = parse x rest.
Proof. intros B x rest t [H W]. pose proof (parse_written B 15 t H) as P. rewrite W in P. symmetry. exact P. Qed.
Lemma one_meaning : forall B (x : B) rest, exists t, means x rest t /\ forall u, means x rest u -> u = t.
Proof. intros B x rest. exists (parse x rest). split; [apply parse_means|]. intros u. apply means_parse. Qed.

(** ** the expression with h2_0cp() in front *)
Fixpoint some (t : tree A) : tree (option A) := match t with Leaf a => Leaf (Some a) | Bin o l r => Bin o (some l) (some r) end.
Definition low (t : tree A) : bool := match t with Leaf _ => true | Bin o _ _ => level o <? 9 end.
Fixpoint splice (t : tree A) : tree (option A) :=
  match t with
  | Leaf a => Bin Gt (Leaf None) (some t)
  | Bin o l r => if level o <? 9 then Bin Gt (Leaf None) (some t) else Bin o (splice l) (some r)
  end.
Definition lift (p : bop * A) : bop * option A := (fst p, Some (snd p)).
Lemma some_written : forall t : tree A, written (some t) = (Some (fst (written t)), map lift (snd (written t))).
Proof. induction t as [a|o l IHl r IHr]; [reflexivity|]. cbn [some written]. rewrite IHl, IHr. cbn [fst snd]. rewrite map_app. reflexivity. Qed.
Lemma some_E : forall n (t : tree A), E n t -> E n (some t).
Proof. intros n t H. induction H; cbn [some]; [constructor|]. eapply E_binary; eauto. Qed.
Lemma splice_written : forall (t : tree A), written (splice t) = (None, (Gt, Some (fst (written t))) :: map lift (snd (written t))).
Proof.
  induction t as [a|o l IHl r IHr]; [reflexivity|]. cbn [splice]. destruct (level o <? 9).
  - cbn [written fst snd]. rewrite (some_written (Bin o l r)). reflexivity.
  - cbn [written]. rewrite IHl, some_written. cbn [fst snd]. rewrite map_app. reflexivity.
Qed.
Lemma splice_E : forall n (t : tree A), E n t -> 9 <= n -> E n (splice t).
Proof.
  intros n t H. induction H as [n x|n o l r m L Hl IHl M Hr IHr]; intros N.
  - cbn [splice]. apply E_binary with (m := 0); try constructor; cbn; lia.
  - cbn [splice]. destruct (level o <? 9) eqn:C.
    + apply Nat.ltb_lt in C. apply E_binary with (m := level o); [cbn; lia|constructor|cbn; lia|]. apply some_E. apply E_binary with (m := m); auto.
    + apply Nat.ltb_ge in C. apply E_binary with (m := m); auto. apply some_E. auto.
Qed.
Lemma splice_parse : forall (x : A) rest (t : tree A), means x rest t -> parse None ((Gt, Some x) :: map lift rest) = splice t.
Proof.
  intros x rest t [H W]. symmetry. apply means_parse. split; [apply splice_E; auto; lia|]. rewrite splice_written, W. reflexivity.
Qed.
Lemma some_plain : forall (t : tree A), elaborate (some t) = Some (Plain t).
Proof. induction t as [a|o l IHl r IHr]; [reflexivity|]. cbn [some elaborate]. rewrite IHl, IHr. reflexivity. Qed.
Lemma splice_elab : forall (t : tree A), elaborate (splice t) = if low t then Some (One t) else match t with Bin o l r => if low l then option_map (fun c => Two c l r) (of_1cp o) else None | Leaf _ => None end.
Proof.
  induction t as [a|o l IHl r IHr]; [reflexivity|]. cbn [splice low]. destruct (level o <? 9) eqn:C.
  - cbn [elaborate]. rewrite some_plain. reflexivity.
  - cbn [elaborate]. rewrite IHl, some_plain. destruct (low l); [reflexivity|]. destruct l as [b|o2 l2 r2]; [reflexivity|].
    destruct (low l2); [|reflexivity]. destruct (of_1cp o2); reflexivity.
Qed.
Lemma check_is : forall (x : A) rest (t : tree A), means x rest t -> check x rest =
  if low t then Some (Condition t) else match t with Bin o l r => if low l then option_map (fun c => Comparison c l r) (of_1cp o) else None | Leaf _ => None end.
Proof.
  intros x rest t H. unfold check. change (map (fun p : bop * A => (fst p, Some (snd p))) rest) with (map lift rest). rewrite (splice_parse x rest t H), splice_elab.
  destruct (low t); [reflexivity|]. destruct t as [a|o l r]; [reflexivity|]. destruct (low l); [|reflexivity]. destruct (of_1cp o); reflexivity.
Qed.
Lemma spelled_1cp : forall o c, of_1cp o = Some c <-> o = spelled c.
Proof. intros o c. split; [destruct o; intros H; try discriminate; injection H as <-; reflexivity|intros ->; destruct c; reflexivity]. Qed.
Lemma as_written : forall (x : A) rest (t : tree A) j, means x rest t -> check x rest = Some j ->
  j = Condition t \/ exists op l r, j = Comparison op l r /\ t = Bin (spelled op) l r.
Proof.
  intros x rest t j M H. rewrite (check_is x rest t M) in H. destruct (low t); [left; congruence|]. right. destruct t as [a|o l r]; [discriminate|].
  destruct (low l); [|discriminate]. destruct (of_1cp o) as [c|] eqn:C; [|discriminate]. injection H as <-. exists c, l, r. apply spelled_1cp in C. subst o. auto.
Qed.

Lemma arithmetic_level : forall o, arithmetic o <-> level o < 9.
Proof. intros o. unfold arithmetic. destruct o; cbn; split; intros; try lia; intuition (try discriminate; auto 10). Qed.
Lemma relational_level : forall o, relational o <-> level o = 9.
Proof. intros o. unfold relational. destruct o; cbn; split; intros; try lia; intuition (try discriminate; auto 10). Qed.
Lemma equality_level : forall o, equality o <-> level o = 10.
Proof. intros o. unfold equality. destruct o; cbn; split; intros; try lia; intuition (try discriminate; auto 10). Qed.
Lemma low_arith : forall n (t : tree A), E n t -> low t = true -> Forall (fun p => arithmetic (fst p)) (snd (written t)).
Proof.
  intros n t H L. assert (E 8 t) as H8. { destruct H as [|n o l r m Ln Hl M Hr]; [constructor|]. unfold low in L. apply Nat.ltb_lt in L. apply E_binary with (m := m); auto; lia. }
  eapply Forall_impl; [|apply (ops_below _ _ _ H8)]. intros p Hp. apply arithmetic_level. cbn in Hp. lia.
Qed.
Lemma arith_low : forall n (t : tree A), E n t -> Forall (fun p => arithmetic (fst p)) (snd (written t)) -> low t = true.
Proof.
  intros n t H F. destruct t as [a|o l r]; [reflexivity|]. cbn [written snd] in F. apply Forall_app in F. destruct F as [_ F]. inversion F as [|? ? F1 _]. cbn in F1. subst.
  apply arithmetic_level in F1. unfold low. apply Nat.ltb_lt. exact F1.
Qed.
Lemma grown_E : forall n (x : A) rest, Forall (fun p => level (fst p) <= n) rest -> E n (parse x rest).
Proof.
  intros n x rest F. unfold parse. assert (forall t : tree A, E n t -> E n (grow rest t)) as G; [|apply G; constructor].
  induction rest as [|[o y] rest IH]; intros t H; [exact H|]. inversion F as [|? ? F1 F2]. cbn in F1. subst. cbn. apply IH; auto.
  destruct (attach_E A t n o y H) as [A1 _]. apply (E_le _ _ _ _ A1). lia.
Qed.
Lemma compiles : forall (x : A) rest, (exists j, check x rest = Some j) <-> checkable rest.
Proof.
  intros x rest. pose proof (parse_means A x rest) as M. set (t := parse x rest) in *. split.
  - intros [j H]. rewrite (check_is x rest t M) in H. destruct M as [M W]. assert (rest = snd (written t)) as R by (rewrite W; reflexivity).
    destruct (low t) eqn:L; [left; rewrite R; apply (low_arith 15); auto|]. right. destruct t as [a|o l r]; [discriminate|].
    destruct (low l) eqn:Ll; [|discriminate]. destruct (of_1cp o) as [c|] eqn:C; [|discriminate]. inversion M as [|? ? ? ? m Lo Hl Lm Hr]. subst.
    exists (snd (written l)), o, (fst (written r)), (snd (written r)). split; [reflexivity|]. split; [apply (low_arith (level o)); auto|].
    apply ops_below in Hr. destruct (Nat.eq_dec (level o) 9) as [E9|N9].
    + left. split; [apply relational_level; auto|]. eapply Forall_impl; [|exact Hr]. intros p Hp. apply arithmetic_level. cbn in Hp. lia.
    + assert (level o = 10) as E10 by (destruct o; try discriminate; cbn in *; congruence). right. split; [apply equality_level; auto|].
      eapply Forall_impl; [|exact Hr]. intros p Hp. cbn in Hp. destruct (Nat.lt_ge_cases (level (fst p)) 9); [left; apply arithmetic_level; auto|right; apply relational_level; lia].
  - intros [F|(l & o & y & r & R & Fl & C)].
    + exists (Condition t). rewrite (check_is x rest t M). destruct M as [M W]. rewrite (arith_low 15 t M); [reflexivity|]. rewrite W. exact F.
    + assert (9 <= level o <= 10 /\ Forall (fun p => level (fst p) <= level o - 1) r) as [Lo Lr].
      { destruct C as [[C1 C2]|[C1 C2]].
        - apply relational_level in C1. split; [lia|]. eapply Forall_impl; [|exact C2]. intros p Hp. apply arithmetic_level in Hp. lia.
        - apply equality_level in C1. split; [lia|]. eapply Forall_impl; [|exact C2]. intros p [Hp|Hp]; [apply arithmetic_level in Hp|apply relational_level in Hp]; lia. }
      assert (Forall (fun p => level (fst p) <= 8) l) as Ll by (eapply Forall_impl; [|exact Fl]; intros p Hp; apply arithmetic_level in Hp; lia).
      set (tl := parse x l). set (tr := parse y r).
      assert (means x rest (Bin o tl tr)) as N.
      { split.
        - apply E_binary with (m := level o - 1); [apply level_bound| |lia|apply grown_E; auto]. apply (E_le _ 8); [apply grown_E; auto|lia].
        - destruct (parse_means A x l) as [_ W1]. destruct (parse_means A y r) as [_ W2]. cbn [written]. fold tl in W1. fold tr in W2. rewrite W1, W2. cbn [fst snd]. rewrite <- R. reflexivity. }
      rewrite (check_is x rest _ N). cbn [low]. replace (level o <? 9) with false by (symmetry; apply Nat.ltb_ge; lia).
      rewrite (arith_low 8 tl); [|apply grown_E; auto|destruct (parse_means A x l) as [_ W1]; fold tl in W1; rewrite W1; exact Fl].
      destruct (of_1cp o) as [c|] eqn:Co; [exists (Comparison c tl tr); reflexivity|]. exfalso. destruct o; cbn in *; try discriminate; lia.
Qed.
End Any.
