(** The recursive descent recognises exactly the grammar. *)
From Coq Require Import List NArith Bool Arith Lia.
From Verif Require Import Base ExprModel ExprSpec.
Import ListNotations.
Local Open Scope nat_scope.

(** ** more calls do not change a result *)
Ltac brk :=
  repeat match goal with
         | H : context [match ?x with _ => _ end] |- _ => destruct x eqn:?; try discriminate; try congruence
         end.
Lemma parse_mono1 : forall f j ts r, parse f j ts = r -> r <> Fuel -> parse (S f) j ts = r.
Proof.
  induction f as [|f IH]; intros j ts r E NF; [cbn [parse] in E; congruence|].
  assert (GG : forall g, (forall j ts, parse f j ts <> Fuel -> parse g j ts = parse f j ts) -> parse (S g) j ts = parse (S f) j ts).
  2:{ rewrite (GG (S f)); [exact E|]. intros j0 ts0 H; apply IH; auto. }
  clear IH. subst r. intros g IH'. cbn [parse] in NF |- *.
  assert (X : forall j0 ts0 k k', (parse f j0 ts0 <> Fuel -> forall t q, parse f j0 ts0 = Ok t q -> k' t q <> Fuel -> k t q = k' t q) ->
     match parse f j0 ts0 with Ok t q => k' t q | Bad => Bad | Fuel => Fuel end <> Fuel ->
     match parse g j0 ts0 with Ok t q => k t q | Bad => Bad | Fuel => Fuel end = match parse f j0 ts0 with Ok t q => k' t q | Bad => Bad | Fuel => Fuel end).
  { intros j0 ts0 k k' K H. destruct (parse f j0 ts0) eqn:P.
    - rewrite IH', P by congruence. apply K; congruence.
    - rewrite IH', P by congruence. reflexivity.
    - contradiction. }
  destruct j.
  - destruct ts as [|[]]; try reflexivity; [destruct arity as [|[|]]; [reflexivity | apply X; auto | destruct ts as [|[]]; try reflexivity; apply IH'; auto] | apply X; auto].
  - apply X; auto.
  - destruct ts as [|[]]; try reflexivity. apply IH'; auto.
  - destruct (signs false ts) as [neg q]. apply X; auto.
  - apply X; auto.
  - destruct ts as [|[]]; try reflexivity; apply X; auto.
  - apply X; auto.
  - destruct ts as [|[]]; try reflexivity; apply X; auto.
  - apply X; auto.
  - destruct ts as [|[]]; try reflexivity; apply X; auto.
  - apply X; auto.
  - destruct ts as [|[]]; try reflexivity; apply X; auto.
  - apply X; auto. intros _ t q _ H. destruct q as [|[]]; auto. destruct (length (args ++ [t]) <? 4); auto.
Qed.
Lemma parse_mono : forall f g j ts r, f <= g -> parse f j ts = r -> r <> Fuel -> parse g j ts = r.
Proof. induction 1; intros; auto. apply parse_mono1; auto. Qed.

Definition runs (j : job) (ts : list token) (r : res) : Prop := exists f, parse f j ts = r /\ r <> Fuel.
Lemma runs_fun j ts r r' : runs j ts r -> runs j ts r' -> r = r'.
Proof.
  intros (f & E & H) (g & E' & H'). destruct (Nat.le_ge_cases f g) as [L|L].
  - rewrite <- E'. symmetry. eapply parse_mono; eauto.
  - rewrite <- E. eapply parse_mono; eauto.
Qed.
(** one call, then its continuation *)
Lemma join1 j ts t q : runs j ts (Ok t q) -> exists f, forall g, f <= g -> parse g j ts = Ok t q.
Proof. intros (f & E & _). exists f. intros. eapply parse_mono; eauto. discriminate. Qed.
Lemma join2 j ts r : runs j ts r -> exists f, forall g, f <= g -> parse g j ts = r.
Proof. intros (f & E & H). exists f. intros. eapply parse_mono; eauto. Qed.

(** ** completeness *)
Definition stop_fac (ts : list token) : Prop := match ts with TFac :: _ | TOpen :: _ => False | _ => True end.
Definition no_open (ts : list token) : Prop := match ts with TOpen :: _ => False | _ => True end.
Definition stop_pow (ts : list token) : Prop := stop_fac ts /\ match ts with TPow :: _ => False | _ => True end.
Definition stop_mul (ts : list token) : Prop := stop_pow ts /\ match ts with TMul _ :: _ => False | _ => True end.
Definition stop_add (ts : list token) : Prop := stop_mul ts /\ match ts with TAdd :: _ | TSub :: _ => False | _ => True end.
Definition stop_comma (ts : list token) : Prop := stop_add ts /\ match ts with TComma :: _ => False | _ => True end.

Definition complete (l : level) (pre : list token) (t : tree) : Prop :=
  forall rest r,
  match l with
  | LAtom => no_open rest -> runs JBase (pre ++ rest) (Ok t rest)
  | LFac => no_open rest -> runs (JFacLoop t) rest r -> runs JFac (pre ++ rest) r
  | LPre => stop_fac rest -> runs JFac (pre ++ rest) (Ok t rest)
  | LPower => stop_fac rest -> runs JPower (pre ++ rest) (Ok t rest)
  | LFactor => stop_fac rest -> runs (JFactorLoop t) rest r -> runs JFactor (pre ++ rest) r
  | LTerm => stop_pow rest -> runs (JTermLoop t) rest r -> runs JTerm (pre ++ rest) r
  | LExpr => stop_mul rest -> runs (JExprLoop t) rest r -> runs JExpr (pre ++ rest) r
  | LList => stop_add rest -> runs (JListLoop t) rest r -> runs JList (pre ++ rest) r
  end.

Ltac go1 := exists 1; split; [cbn [parse]|discriminate].
Lemma loop_fac_stop t ts : stop_fac ts -> runs (JFacLoop t) ts (Ok t ts).
Proof. intro H. go1. destruct ts as [|[]]; cbn in H; auto; contradiction. Qed.
Lemma loop_pow_stop t ts : stop_pow ts -> runs (JFactorLoop t) ts (Ok t ts).
Proof. intros [_ H]. go1. destruct ts as [|[]]; cbn in H; auto; contradiction. Qed.
Lemma loop_mul_stop t ts : stop_mul ts -> runs (JTermLoop t) ts (Ok t ts).
Proof. intros [_ H]. go1. destruct ts as [|[]]; cbn in H; auto; contradiction. Qed.
Lemma loop_add_stop t ts : stop_add ts -> runs (JExprLoop t) ts (Ok t ts).
Proof. intros [_ H]. go1. destruct ts as [|[]]; cbn in H; auto; contradiction. Qed.
Lemma loop_comma_stop t ts : stop_comma ts -> runs (JListLoop t) ts (Ok t ts).
Proof. intros [_ H]. go1. destruct ts as [|[]]; cbn in H; auto; contradiction. Qed.

(** sequencing two runs under one more call *)
Ltac seq2 H1 H2 :=
  let f1 := fresh "f" in let f2 := fresh "f" in let E1 := fresh "E" in let E2 := fresh "E" in
  destruct (join2 _ _ _ H1) as [f1 E1]; destruct (join2 _ _ _ H2) as [f2 E2];
  exists (S (f1 + f2)); cbn [parse]; rewrite E1 by lia; try rewrite E2 by lia.
Ltac seq1 H1 :=
  let f1 := fresh "f" in let E1 := fresh "E" in
  destruct (join2 _ _ _ H1) as [f1 E1]; exists (S f1); cbn [parse]; rewrite E1 by lia.
Lemma runs_ok j ts r : runs j ts r -> r <> Fuel.
Proof. intros (? & ? & ?); auto. Qed.

Lemma signs_spec sg ts : Forall is_sign sg -> match ts with TAdd :: _ | TSub :: _ => False | _ => True end ->
  forall b, signs b (sg ++ ts) = (xorb b (Nat.odd (minuses sg)), ts).
Proof.
  intros F H. induction F as [|x sg Hx F IH]; intro b.
  - cbn [app]. replace (minuses []) with 0 by reflexivity. cbn. rewrite xorb_false_r.
    destruct ts as [|[]]; cbn in *; auto; contradiction.
  - destruct Hx as [-> | ->]; cbn [app signs]; rewrite IH.
    + reflexivity.
    + change (minuses (TSub :: sg)) with (S (minuses sg)). rewrite Nat.odd_succ, <- Nat.negb_odd.
      destruct b, (Nat.odd (minuses sg)); reflexivity.
Qed.
(** what an unsigned operand begins with *)
Definition starts (ts : list token) : Prop := match ts with TNum _ :: _ | TFun _ _ :: _ | TOpen :: _ => True | _ => False end.
Lemma starts_app ts r : starts ts -> starts (ts ++ r).
Proof. destruct ts as [|[]]; cbn; auto; contradiction. Qed.
Lemma derives_starts l ts t : derives l ts t -> match l with LAtom | LFac | LPre => starts ts | _ => True end.
Proof. induction 1; cbn; auto. apply starts_app; auto. Qed.

Lemma derives_complete l pre t : derives l pre t -> complete l pre t.
Proof.
  induction 1; unfold complete in *; intros rest r.
  - intros _. go1. reflexivity.
  - intros _. cbn [app]. rewrite <- app_assoc. cbn [app].
    assert (Q : runs JList (ts ++ TClose :: rest) (Ok t (TClose :: rest))).
    { apply IHderives; [repeat split|]. apply loop_comma_stop; repeat split. }
    seq1 Q. split; [reflexivity|discriminate].
  - intros NO. go1. cbn [app]. destruct rest as [|[]]; auto; cbn in NO; contradiction.
  - intros _. go1. reflexivity.
  - intros _. cbn [app]. rewrite <- app_assoc. cbn [app]. rewrite <- app_assoc. cbn [app].
    assert (Q1 : runs JExpr (a ++ TComma :: b ++ TClose :: rest) (Ok ta (TComma :: b ++ TClose :: rest))).
    { apply IHderives1; [repeat split|]. apply loop_add_stop; repeat split. }
    assert (Q2 : runs JExpr (b ++ TClose :: rest) (Ok tb (TClose :: rest))).
    { apply IHderives2; [repeat split|]. apply loop_add_stop; repeat split. }
    assert (Q3 : runs (JArgs n 2 [ta]) (b ++ TClose :: rest) (Ok (App2 n ta tb) rest)).
    { seq1 Q2. split; [reflexivity|discriminate]. }
    assert (Q4 : runs (JArgs n 2 []) (a ++ TComma :: b ++ TClose :: rest) (Ok (App2 n ta tb) rest)).
    { seq2 Q1 Q3. split; [reflexivity|discriminate]. }
    seq1 Q4. split; [reflexivity|discriminate].
  - intros NO L. pose proof (runs_ok _ _ _ L). specialize (IHderives rest r NO). seq2 IHderives L. auto.
  - intros NO L. pose proof (runs_ok _ _ _ L) as K. rewrite <- app_assoc. cbn [app]. apply IHderives; [exact I|].
    seq1 L. auto.
  - intros ST. apply IHderives; [destruct rest as [|[]]; cbn in *; auto|]. apply loop_fac_stop; auto.
  - intros ST. specialize (IHderives rest r ST). cbn [app].
    assert (Q : runs JBase (TFun n 1 :: ts ++ rest) (Ok (App1 n t) rest)).
    { seq1 IHderives. split; [reflexivity|discriminate]. }
    pose proof (loop_fac_stop (App1 n t) rest ST) as L. seq2 Q L. split; [reflexivity|discriminate].
  - intros ST. specialize (IHderives rest r ST). rewrite <- app_assoc.
    destruct (join2 _ _ _ IHderives) as [f E]. exists (S f). cbn [parse].
    rewrite signs_spec; auto.
    + rewrite xorb_false_l. rewrite E by lia. split; [reflexivity|discriminate].
    + apply derives_starts in H0. apply (starts_app _ rest) in H0. destruct (ts ++ rest) as [|[]]; cbn in *; auto.
  - intros ST L. pose proof (runs_ok _ _ _ L). specialize (IHderives rest r ST). seq2 IHderives L. auto.
  - intros ST L. pose proof (runs_ok _ _ _ L). rewrite <- app_assoc. cbn [app]. apply IHderives1; [exact I|].
    specialize (IHderives2 rest r ST). seq2 IHderives2 L. auto.
  - intros ST L. pose proof (runs_ok _ _ _ L). specialize (IHderives rest _ (proj1 ST) (loop_pow_stop t rest ST)).
    seq2 IHderives L. auto.
  - intros ST L. pose proof (runs_ok _ _ _ L). rewrite <- app_assoc. cbn [app]. apply IHderives1; [split; exact I|].
    specialize (IHderives2 rest _ (proj1 ST) (loop_pow_stop tb rest ST)). seq2 IHderives2 L. auto.
  - intros ST L. pose proof (runs_ok _ _ _ L). specialize (IHderives rest _ (proj1 ST) (loop_mul_stop t rest ST)). seq2 IHderives L. auto.
  - intros ST L. pose proof (runs_ok _ _ _ L). rewrite <- app_assoc. cbn [app]. apply IHderives1; [repeat split|].
    specialize (IHderives2 rest _ (proj1 ST) (loop_mul_stop tb rest ST)). seq2 IHderives2 L. auto.
  - intros ST L. pose proof (runs_ok _ _ _ L). rewrite <- app_assoc. cbn [app]. apply IHderives1; [repeat split|].
    specialize (IHderives2 rest _ (proj1 ST) (loop_mul_stop tb rest ST)). seq2 IHderives2 L. auto.
  - intros ST L. pose proof (runs_ok _ _ _ L). specialize (IHderives rest _ (proj1 ST) (loop_add_stop t rest ST)). seq2 IHderives L. auto.
  - intros ST L. pose proof (runs_ok _ _ _ L). rewrite <- app_assoc. cbn [app]. apply IHderives1; [repeat split|].
    specialize (IHderives2 rest _ (proj1 ST) (loop_add_stop tb rest ST)). seq2 IHderives2 L. auto.
Qed.

(** ** soundness *)
Definition nofac (ts : list token) : Prop := match ts with TFac :: _ => False | _ => True end.
Definition ext (l : level) (t0 : tree) (pre : list token) (t : tree) : Prop := forall p, derives l p t0 -> derives l (p ++ pre) t.
Definition sound (j : job) (ts pre : list token) (t : tree) (rest : list token) : Prop :=
  match j with
  | JBase => derives LAtom pre t \/ (derives LPre pre t /\ nofac rest)
  | JFac => derives LPre pre t /\ nofac rest
  | JFacLoop t0 => ext LFac t0 pre t /\ (nofac ts -> pre = [] /\ t = t0) /\ nofac rest
  | JPower => derives LPower pre t /\ nofac rest
  | JFactor => derives LFactor pre t
  | JFactorLoop t0 => ext LFactor t0 pre t
  | JTerm => derives LTerm pre t
  | JTermLoop t0 => ext LTerm t0 pre t
  | JExpr => derives LExpr pre t
  | JExprLoop t0 => ext LExpr t0 pre t
  | JList => derives LList pre t
  | JListLoop t0 => ext LList t0 pre t
  | JArgs n k args =>
      2 <= k ->
      match args with
      | [] => k = 2 /\ exists a ta b tb, pre = a ++ TComma :: b ++ [TClose] /\ derives LExpr a ta /\ derives LExpr b tb /\ t = App2 n ta tb
      | [ta] => k = 2 /\ exists b tb, pre = b ++ [TClose] /\ derives LExpr b tb /\ t = App2 n ta tb
      | _ => False
      end
  end.
Lemma ext_nil l t : ext l t [] t.
Proof. intros p H. rewrite app_nil_r. exact H. Qed.
Lemma signs_inv ts : forall b neg q, signs b ts = (neg, q) -> exists sg, ts = sg ++ q /\ Forall is_sign sg /\ neg = xorb b (Nat.odd (minuses sg)).
Proof.
  induction ts as [|x ts IH]; intros b neg q E.
  - cbn in E. injection E as <- <-. exists []. cbn. rewrite xorb_false_r. auto.
  - destruct x; cbn [signs] in E;
      try (injection E as <- <-; exists []; cbn [app]; split; [reflexivity|split; [constructor|]]; cbn; rewrite xorb_false_r; reflexivity).
    + destruct (IH _ _ _ E) as (sg & -> & F & ->). exists (TAdd :: sg). repeat split; auto. constructor; auto. left; auto.
    + destruct (IH _ _ _ E) as (sg & -> & F & ->). exists (TSub :: sg). repeat split; auto. constructor; auto. right; auto.
      change (minuses (TSub :: sg)) with (S (minuses sg)). rewrite Nat.odd_succ, <- Nat.negb_odd.
      destruct b, (Nat.odd (minuses sg)); reflexivity.
Qed.

Ltac inj E := injection E as <- <-.
Lemma parse_sound : forall f j ts t rest, parse f j ts = Ok t rest -> exists pre, ts = pre ++ rest /\ sound j ts pre t rest.
Proof.
  induction f as [|f IH]; intros j ts t rest E; [discriminate|].
  cbn [parse] in E. destruct j.
  - (* base *)
    destruct ts as [|x ts]; [discriminate|]. destruct x; try discriminate.
    + inj E. exists [TNum s]. split; [reflexivity|]. left. constructor.
    + destruct arity as [|[|k]].
      * destruct ts as [|y ts]; [inj E; exists [TFun name 0]; split; [reflexivity|left; constructor]|].
        destruct y; try (inj E; exists [TFun name 0]; split; [reflexivity|left; constructor]).
        destruct ts as [|z ts]; [discriminate|]. destruct z; try discriminate. inj E.
        exists [TFun name 0; TOpen; TClose]. split; [reflexivity|left; constructor].
      * destruct (parse f JPower ts) as [t1 q1| |] eqn:P; try discriminate. inj E.
        destruct (IH _ _ _ _ P) as (pre & -> & D & NF). exists (TFun name 1 :: pre). split; [reflexivity|]. right. split; [apply D_fun1; exact D|exact NF].
      * destruct ts as [|y ts]; [discriminate|]. destruct y; try discriminate.
        destruct (IH _ _ _ _ E) as (pre & -> & D). cbn [sound] in D. destruct D as (K & a & ta & b & tb & -> & Da & Db & ->); [lia|].
        exists (TFun name (S (S k)) :: TOpen :: a ++ TComma :: b ++ [TClose]). split; [reflexivity|]. left. rewrite K. constructor; auto.
    + destruct (parse f JList ts) as [t1 q1| |] eqn:P; try discriminate.
      destruct q1 as [|z q1]; [discriminate|]. destruct z; try discriminate. inj E.
      destruct (IH _ _ _ _ P) as (pre & -> & D). exists (TOpen :: pre ++ [TClose]). split.
      * cbn [app]. rewrite <- app_assoc. reflexivity.
      * left. constructor. exact D.
  - destruct (parse f JBase ts) as [t1 q1| |] eqn:P; try discriminate.
    destruct (IH _ _ _ _ P) as (pre & -> & D). destruct (IH _ _ _ _ E) as (pre2 & -> & L1 & L2 & L3).
    exists (pre ++ pre2). split; [rewrite <- app_assoc; reflexivity|]. split; [|exact L3].
    destruct D as [D | [D NF]].
    + apply D_fac. apply L1. apply D_atom. exact D.
    + destruct (L2 NF) as [-> ->]. rewrite app_nil_r. exact D.
  - destruct ts as [|x ts].
    { inj E. exists []. split; [reflexivity|]. split; [apply ext_nil|]. split; auto. exact I. }
    destruct x; try (inj E; exists []; split; [reflexivity|]; split; [apply ext_nil|]; split; auto; exact I).
    destruct (IH _ _ _ _ E) as (pre & -> & L1 & L2 & L3). exists (TFac :: pre). split; [reflexivity|]. split; [|split; auto].
    + intros p D. change (TFac :: pre) with ([TFac] ++ pre). rewrite app_assoc. apply L1. apply D_factorial. exact D.
    + cbn. contradiction.
  - destruct (signs false ts) as [neg q] eqn:S. destruct (parse f JFac q) as [t1 q1| |] eqn:P; try discriminate. inj E.
    destruct (IH _ _ _ _ P) as (pre & -> & D & NF). destruct (signs_inv _ _ _ _ S) as (sg & -> & F & ->).
    exists (sg ++ pre). split; [rewrite <- app_assoc; reflexivity|]. split; [|exact NF].
    rewrite xorb_false_l.
    apply D_signs; auto.
  - destruct (parse f JPower ts) as [t1 q1| |] eqn:P; try discriminate.
    destruct (IH _ _ _ _ P) as (pre & -> & D & NF). destruct (IH _ _ _ _ E) as (pre2 & -> & L).
    exists (pre ++ pre2). split; [rewrite <- app_assoc; reflexivity|]. apply L. apply D_power. exact D.
  - destruct ts as [|x ts]; [inj E; exists []; split; [reflexivity|apply ext_nil]|].
    destruct x; try (inj E; exists []; split; [reflexivity|apply ext_nil]).
    destruct (parse f JPower ts) as [t1 q1| |] eqn:P; try discriminate.
    destruct (IH _ _ _ _ P) as (pre & -> & D & NF). destruct (IH _ _ _ _ E) as (pre2 & -> & L).
    exists (TPow :: pre ++ pre2). split; [cbn [app]; rewrite <- app_assoc; reflexivity|].
    intros p Dp. replace (p ++ TPow :: pre ++ pre2) with ((p ++ TPow :: pre) ++ pre2) by (rewrite <- app_assoc; reflexivity). apply L. apply D_pow; auto.
  - destruct (parse f JFactor ts) as [t1 q1| |] eqn:P; try discriminate.
    destruct (IH _ _ _ _ P) as (pre & -> & D). destruct (IH _ _ _ _ E) as (pre2 & -> & L).
    exists (pre ++ pre2). split; [rewrite <- app_assoc; reflexivity|]. apply L. apply D_factor. exact D.
  - destruct ts as [|x ts]; [inj E; exists []; split; [reflexivity|apply ext_nil]|].
    destruct x; try (inj E; exists []; split; [reflexivity|apply ext_nil]).
    destruct (parse f JFactor ts) as [t1 q1| |] eqn:P; try discriminate.
    destruct (IH _ _ _ _ P) as (pre & -> & D). destruct (IH _ _ _ _ E) as (pre2 & -> & L).
    exists (TMul f0 :: pre ++ pre2). split; [cbn [app]; rewrite <- app_assoc; reflexivity|].
    intros p Dp. replace (p ++ TMul f0 :: pre ++ pre2) with ((p ++ TMul f0 :: pre) ++ pre2) by (rewrite <- app_assoc; reflexivity). apply L. apply D_mul; auto.
  - destruct (parse f JTerm ts) as [t1 q1| |] eqn:P; try discriminate.
    destruct (IH _ _ _ _ P) as (pre & -> & D). destruct (IH _ _ _ _ E) as (pre2 & -> & L).
    exists (pre ++ pre2). split; [rewrite <- app_assoc; reflexivity|]. apply L. apply D_term. exact D.
  - destruct ts as [|x ts]; [inj E; exists []; split; [reflexivity|apply ext_nil]|].
    destruct x; try (inj E; exists []; split; [reflexivity|apply ext_nil]).
    + destruct (parse f JTerm ts) as [t1 q1| |] eqn:P; try discriminate.
      destruct (IH _ _ _ _ P) as (pre & -> & D). destruct (IH _ _ _ _ E) as (pre2 & -> & L).
      exists (TAdd :: pre ++ pre2). split; [cbn [app]; rewrite <- app_assoc; reflexivity|].
      intros p Dp. replace (p ++ TAdd :: pre ++ pre2) with ((p ++ TAdd :: pre) ++ pre2) by (rewrite <- app_assoc; reflexivity). apply L. apply D_add; auto.
    + destruct (parse f JTerm ts) as [t1 q1| |] eqn:P; try discriminate.
      destruct (IH _ _ _ _ P) as (pre & -> & D). destruct (IH _ _ _ _ E) as (pre2 & -> & L).
      exists (TSub :: pre ++ pre2). split; [cbn [app]; rewrite <- app_assoc; reflexivity|].
      intros p Dp. replace (p ++ TSub :: pre ++ pre2) with ((p ++ TSub :: pre) ++ pre2) by (rewrite <- app_assoc; reflexivity). apply L. apply D_sub; auto.
  - destruct (parse f JExpr ts) as [t1 q1| |] eqn:P; try discriminate.
    destruct (IH _ _ _ _ P) as (pre & -> & D). destruct (IH _ _ _ _ E) as (pre2 & -> & L).
    exists (pre ++ pre2). split; [rewrite <- app_assoc; reflexivity|]. apply L. apply D_expr. exact D.
  - destruct ts as [|x ts]; [inj E; exists []; split; [reflexivity|apply ext_nil]|].
    destruct x; try (inj E; exists []; split; [reflexivity|apply ext_nil]).
    destruct (parse f JExpr ts) as [t1 q1| |] eqn:P; try discriminate.
    destruct (IH _ _ _ _ P) as (pre & -> & D). destruct (IH _ _ _ _ E) as (pre2 & -> & L).
    exists (TComma :: pre ++ pre2). split; [cbn [app]; rewrite <- app_assoc; reflexivity|].
    intros p Dp. replace (p ++ TComma :: pre ++ pre2) with ((p ++ TComma :: pre) ++ pre2) by (rewrite <- app_assoc; reflexivity). apply L. apply D_comma; auto.
  - destruct (parse f JExpr ts) as [t1 q1| |] eqn:P; try discriminate.
    destruct (IH _ _ _ _ P) as (pre & -> & D). cbn [sound] in D.
    destruct q1 as [|x q1]; [discriminate|]. destruct x; try discriminate.
    + destruct (length (args ++ [t1]) =? arity) eqn:K; [|discriminate]. apply Nat.eqb_eq in K.
      destruct (apply_fun f0 (args ++ [t1])) as [t'|] eqn:A; [|discriminate]. inj E.
      exists (pre ++ [TClose]). split; [rewrite <- app_assoc; reflexivity|]. intro K2.
      destruct args as [|a1 args]; [cbn in K; lia|]. destruct args as [|a2 args].
      * cbn in K. split; [lia|]. exists pre, t1. cbn in A. injection A as <-. auto.
      * destruct args as [|a3 args]; cbn in A; [discriminate|]. destruct args; discriminate.
    + destruct (length (args ++ [t1]) <? 4) eqn:K; [|discriminate].
      destruct (IH _ _ _ _ E) as (pre2 & -> & L). exists (pre ++ TComma :: pre2). split; [rewrite <- app_assoc; reflexivity|]. intro K2.
      specialize (L K2). destruct args as [|a1 args].
      * cbn [app] in L. destruct L as (-> & b & tb & -> & Db & ->). split; [reflexivity|]. exists pre, t1, b, tb. auto.
      * destruct args as [|a2 args]; cbn [app] in L; [contradiction|]. destruct args as [|a3 args]; cbn [app] in L; contradiction.
Qed.

(** ** termination *)
Definition rank (j : job) : nat :=
  match j with JBase => 1 | JFac => 2 | JPower => 3 | JFactor => 4 | JTerm => 5 | JExpr => 6 | JList => 7 | JArgs _ _ _ => 7 | _ => 1 end.
Definition looping (j : job) : bool := match j with JFacLoop _ | JFactorLoop _ | JTermLoop _ | JExprLoop _ | JListLoop _ => true | _ => false end.
Lemma signs_length ts : forall b, length (snd (signs b ts)) <= length ts.
Proof. induction ts as [|x ts IH]; intro b; [cbn; lia|]. destruct x; cbn [signs snd length]; try lia; [specialize (IH b)|specialize (IH (negb b))]; lia. Qed.
Lemma parse_ends : forall f j ts, rank j + 10 * length ts <= f ->
  parse f j ts <> Fuel /\ forall t q, parse f j ts = Ok t q -> length q <= length ts - (if looping j then 0 else 1).
Proof.
  induction f as [|f IH]; intros j ts B; [destruct j; cbn [rank] in B; lia|].
  assert (N : forall j0 ts0 (k : tree -> list token -> res) d, rank j0 + 10 * length ts0 <= f ->
     (forall t q, length q <= length ts0 - (if looping j0 then 0 else 1) -> k t q <> Fuel /\ forall t' q', k t q = Ok t' q' -> length q' <= d) ->
     match parse f j0 ts0 with Ok t q => k t q | Bad => Bad | Fuel => Fuel end <> Fuel /\
     forall t' q', match parse f j0 ts0 with Ok t q => k t q | Bad => Bad | Fuel => Fuel end = Ok t' q' -> length q' <= d).
  { intros j0 ts0 k d B0 K. destruct (IH j0 ts0 B0) as [H1 H2]. destruct (parse f j0 ts0) as [t q| |] eqn:P.
    - apply K. apply H2 with t. reflexivity.
    - split; [discriminate|]. discriminate.
    - contradiction. }
  assert (NE : forall ts0 : list token, 1 <= length ts0 \/ ts0 = []) by (intros [|]; [right; auto|left; cbn; lia]).
  cbn [parse]. destruct j; cbn [rank looping] in *.
  - destruct ts as [|x ts]; [split; discriminate|]. cbn [length] in *.
    destruct x; try (split; discriminate).
    + split; [discriminate|]. intros t q E; inj E. cbn [length]; lia.
    + destruct arity as [|[|k]].
      * destruct ts as [|y ts]; [split; [discriminate|]; intros t q E; inj E; cbn [length]; lia|].
        destruct y; try (split; [discriminate|]; intros t q E; inj E; cbn [length]; lia).
        destruct ts as [|z ts]; [split; discriminate|]. destruct z; try (split; discriminate).
        split; [discriminate|]. intros t q E; inj E. cbn [length]. lia.
      * apply N; [cbn [rank]; lia|]. intros t q L. split; [discriminate|]. intros t' q' E; inj E. cbn [looping] in L. lia.
      * destruct ts as [|y ts]; [split; discriminate|]. destruct y; try (split; discriminate).
        cbn [length] in *. destruct (IH (JArgs name (S (S k)) []) ts) as [H1 H2]; [cbn [rank]; lia|].
        split; [exact H1|]. intros t q E. specialize (H2 _ _ E). cbn [looping] in H2. lia.
    + apply N; [cbn [rank]; lia|]. intros t q L. cbn [looping] in L. destruct q as [|z q]; [split; discriminate|].
      destruct z; try (split; discriminate). split; [discriminate|]. intros t' q' E; inj E. cbn [length] in L. lia.
  - destruct (NE ts) as [NE1|NE1].
    + apply N; [cbn [rank]; lia|]. intros t q L. cbn [looping] in L.
      destruct (IH (JFacLoop t) q) as [H1 H2]; [cbn [rank]; lia|]. split; [exact H1|]. intros t' q' E. specialize (H2 _ _ E). cbn [looping] in H2. lia.
    + subst ts. cbn [length] in *. destruct f; [lia|]. cbn [parse]. split; discriminate.
  - destruct ts as [|x ts]; [split; [discriminate|]; intros t' q' E; inj E; cbn [length]; lia|].
    destruct x; try (split; [discriminate|]; intros t' q' E; inj E; cbn [length]; lia).
    cbn [length] in *. destruct (IH (JFacLoop (App1 (str "factorial") t)) ts) as [H1 H2]; [cbn [rank]; lia|].
    split; [exact H1|]. intros t' q' E. specialize (H2 _ _ E). cbn [looping] in H2. lia.
  - destruct (signs false ts) as [neg q] eqn:S. pose proof (signs_length ts false) as SL. rewrite S in SL. cbn [snd] in SL.
    apply N; [cbn [rank]; lia|]. intros t q' L. cbn [looping] in L. split; [discriminate|]. intros t' q'' E; inj E. lia.
  - destruct (NE ts) as [NE1|NE1].
    + apply N; [cbn [rank]; lia|]. intros t q L. cbn [looping] in L.
      destruct (IH (JFactorLoop t) q) as [H1 H2]; [cbn [rank]; lia|]. split; [exact H1|]. intros t' q' E. specialize (H2 _ _ E). cbn [looping] in H2. lia.
    + subst ts. cbn [length] in *. do 3 (destruct f; [lia|]). cbn [parse signs]. split; discriminate.
  - destruct ts as [|x ts]; [split; [discriminate|]; intros t' q' E; inj E; cbn [length]; lia|].
    destruct x; try (split; [discriminate|]; intros t' q' E; inj E; cbn [length]; lia).
    cbn [length] in *. apply N; [cbn [rank]; lia|]. intros t1 q L. cbn [looping] in L.
    destruct (IH (JFactorLoop (App2 (str "pow") t t1)) q) as [H1 H2]; [cbn [rank]; lia|]. split; [exact H1|]. intros t' q' E. specialize (H2 _ _ E). cbn [looping] in H2. lia.
  - destruct (NE ts) as [NE1|NE1].
    + apply N; [cbn [rank]; lia|]. intros t q L. cbn [looping] in L.
      destruct (IH (JTermLoop t) q) as [H1 H2]; [cbn [rank]; lia|]. split; [exact H1|]. intros t' q' E. specialize (H2 _ _ E). cbn [looping] in H2. lia.
    + subst ts. cbn [length] in *. do 4 (destruct f; [lia|]). cbn [parse signs]. split; discriminate.
  - destruct ts as [|x ts]; [split; [discriminate|]; intros t' q' E; inj E; cbn [length]; lia|].
    destruct x; try (split; [discriminate|]; intros t' q' E; inj E; cbn [length]; lia).
    cbn [length] in *. apply N; [cbn [rank]; lia|]. intros t1 q L. cbn [looping] in L.
    destruct (IH (JTermLoop (App2 f0 t t1)) q) as [H1 H2]; [cbn [rank]; lia|]. split; [exact H1|]. intros t' q' E. specialize (H2 _ _ E). cbn [looping] in H2. lia.
  - destruct (NE ts) as [NE1|NE1].
    + apply N; [cbn [rank]; lia|]. intros t q L. cbn [looping] in L.
      destruct (IH (JExprLoop t) q) as [H1 H2]; [cbn [rank]; lia|]. split; [exact H1|]. intros t' q' E. specialize (H2 _ _ E). cbn [looping] in H2. lia.
    + subst ts. cbn [length] in *. do 5 (destruct f; [lia|]). cbn [parse signs]. split; discriminate.
  - destruct ts as [|x ts]; [split; [discriminate|]; intros t' q' E; inj E; cbn [length]; lia|].
    destruct x; try (split; [discriminate|]; intros t' q' E; inj E; cbn [length]; lia);
    cbn [length] in *; apply N; [cbn [rank]; lia| |cbn [rank]; lia|]; intros t1 q L; cbn [looping] in L.
    + destruct (IH (JExprLoop (App2 (str "+") t t1)) q) as [H1 H2]; [cbn [rank]; lia|]. split; [exact H1|]. intros t' q' E. specialize (H2 _ _ E). cbn [looping] in H2. lia.
    + destruct (IH (JExprLoop (App2 (str "-") t t1)) q) as [H1 H2]; [cbn [rank]; lia|]. split; [exact H1|]. intros t' q' E. specialize (H2 _ _ E). cbn [looping] in H2. lia.
  - destruct (NE ts) as [NE1|NE1].
    + apply N; [cbn [rank]; lia|]. intros t q L. cbn [looping] in L.
      destruct (IH (JListLoop t) q) as [H1 H2]; [cbn [rank]; lia|]. split; [exact H1|]. intros t' q' E. specialize (H2 _ _ E). cbn [looping] in H2. lia.
    + subst ts. cbn [length] in *. do 6 (destruct f; [lia|]). cbn [parse signs]. split; discriminate.
  - destruct ts as [|x ts]; [split; [discriminate|]; intros t' q' E; inj E; cbn [length]; lia|].
    destruct x; try (split; [discriminate|]; intros t' q' E; inj E; cbn [length]; lia).
    cbn [length] in *. apply N; [cbn [rank]; lia|]. intros t1 q L. cbn [looping] in L.
    destruct (IH (JListLoop (App2 (str "comma") t t1)) q) as [H1 H2]; [cbn [rank]; lia|]. split; [exact H1|]. intros t' q' E. specialize (H2 _ _ E). cbn [looping] in H2. lia.
  - apply N; [cbn [rank]; lia|]. intros t q L. cbn [looping] in L. destruct q as [|x q]; [split; discriminate|].
    destruct x; try (split; discriminate).
    + destruct (length (args ++ [t]) =? arity); [|split; discriminate]. destruct (apply_fun f0 (args ++ [t])); [|split; discriminate].
      split; [discriminate|]. intros t' q' E; inj E. cbn [length] in L. lia.
    + destruct (length (args ++ [t]) <? 4); [|split; discriminate]. cbn [length] in L.
      destruct (IH (JArgs f0 arity (args ++ [t])) q) as [H1 H2]; [cbn [rank]; lia|]. split; [exact H1|]. intros t' q' E. specialize (H2 _ _ E). cbn [looping] in H2. lia.
Qed.

Lemma parse_calls ts : parse (calls ts) JList ts <> Fuel.
Proof. apply parse_ends. unfold calls. cbn [rank]. lia. Qed.

Lemma list_runs ts t : derives LList ts t -> runs JList ts (Ok t []).
Proof.
  intro D. pose proof (derives_complete LList ts t D [] (Ok t [])) as C. cbn in C. rewrite app_nil_r in C.
  apply C; [repeat split|]. apply loop_comma_stop. repeat split.
Qed.
Lemma compile_derives s t : compile s = Some t <-> derives LList (lex 0 s) t.
Proof.
  unfold compile. set (ts := lex 0 s). split.
  - destruct (parse (calls ts) JList ts) as [t1 q| |] eqn:P; try discriminate. destruct q; [|discriminate].
    intro E. injection E as <-. destruct (parse_sound _ _ _ _ _ P) as (pre & E & D). rewrite app_nil_r in E. subst pre. exact D.
  - intro D. pose proof (list_runs ts t D) as Q.
    assert (Q2 : runs JList ts (parse (calls ts) JList ts)) by (exists (calls ts); split; [reflexivity|apply parse_calls]).
    rewrite <- (runs_fun _ _ _ _ Q Q2). reflexivity.
Qed.
Lemma derives_fun ts t t' : derives LList ts t -> derives LList ts t' -> t = t'.
Proof. intros D D'. pose proof (runs_fun _ _ _ _ (list_runs _ _ D) (list_runs _ _ D')) as E. congruence. Qed.
