(** Tokens of a text; factorials. *)
From Coq Require Import List NArith Bool Arith Lia ZArith ZifyClasses ZifyInst ZifyBool Factorial.
From Verif Require Import Base ExprModel ExprSpec ExprProofs.
Import ListNotations.
Local Open Scope N_scope.

Definition cuts (f : byte -> bool) (s : bytes) : Prop := match s with [] => True | c :: _ => f c = false end.
Lemma take_while_app f w s : Forall (fun c => f c = true) w -> cuts f s -> take_while f (w ++ s) = w.
Proof.
  induction 1 as [|c w H F IH]; intro C; cbn [app take_while].
  - destruct s as [|c s]; [reflexivity|]. cbn in C. cbn [take_while]. rewrite C. reflexivity.
  - rewrite H. f_equal. apply IH. exact C.
Qed.
Lemma digit_b c : digit c <-> isdigit c = true.
Proof. unfold digit, isdigit. lia. Qed.
Lemma digits_b d : Forall digit d -> Forall (fun c => isdigit c = true) d.
Proof. apply Forall_impl. intros c. apply digit_b. Qed.
Lemma skipn_app_exact {A} (a b : list A) : skipn (length a) (a ++ b) = b.
Proof. rewrite skipn_app, skipn_all, Nat.sub_diag. reflexivity. Qed.
Definition stop_word (s : bytes) : Prop := match s with [] => True | c :: _ => ~ wordy c end.
Lemma stop_digit s : stop_word s -> cuts isdigit s.
Proof. destruct s as [|c s]; cbn; auto. unfold wordy, isdigit. lia. Qed.
Definition marks (c : byte) : bool := (c =? 101) || (c =? 69).
Lemma exponent_exact x s : exp_part x -> stop_word s -> exponent marks (x ++ s) = x.
Proof.
  intros [-> | (m & g & d & -> & Hm & Hg & Hd & Fd)] SW.
  - cbn [app]. destruct s as [|c s]; [reflexivity|]. cbn [exponent]. cbn in SW. replace (marks c) with false; [reflexivity|].
    unfold wordy in SW. unfold marks. lia.
  - cbn [app exponent]. replace (marks m) with true by (unfold marks; lia).
    destruct d as [|d0 d]; [congruence|].
    assert (T : take_while isdigit ((d0 :: d) ++ s) = d0 :: d) by (apply take_while_app; [apply digits_b; auto|apply stop_digit; auto]).
    pose proof (Forall_inv Fd) as D0.
    destruct Hg as [-> | [-> | ->]]; cbn [app].
    + cbn [app] in T. replace ((d0 =? 43) || (d0 =? 45)) with false by (unfold digit in D0; lia). rewrite T. reflexivity.
    + cbn [app] in T. change ((43 =? 43) || (43 =? 45)) with true. rewrite T. reflexivity.
    + cbn [app] in T. change ((45 =? 43) || (45 =? 45)) with true. rewrite T. reflexivity.
Qed.
Lemma exp_cuts x s : exp_part x -> stop_word s -> cuts isdigit (x ++ s).
Proof.
  intros [-> | (m & g & d & -> & Hm & _)] SW; cbn [app]; [apply stop_digit; auto|]. cbn. unfold isdigit. lia.
Qed.
Lemma exp_no_point x s : exp_part x -> stop_word s -> match x ++ s with 46 :: _ => False | _ => True end.
Proof.
  intros [-> | (m & g & d & -> & Hm & _)] SW; cbn [app].
  - destruct s as [|c s]; [exact I|]. cbn in SW. destruct (N.eq_dec c 46) as [->|NE]; [unfold wordy in SW; lia|].
    destruct c as [|p]; auto. do 6 (destruct p as [p|p|]; auto).
  - destruct Hm as [-> | ->]; exact I.
Qed.
Lemma mantissa_exact i f x s : Forall digit i -> fraction f -> exp_part x -> (i <> [] \/ exists c r, f = 46 :: c :: r) -> stop_word s ->
  mantissa isdigit marks (i ++ f ++ x ++ s) = i ++ f ++ x.
Proof.
  intros Fi Ff Fx NE SW. unfold mantissa.
  assert (C : cuts isdigit (f ++ x ++ s)).
  { destruct Ff as [-> | (d & -> & _)]; cbn [app]; [apply exp_cuts; auto|reflexivity]. }
  rewrite (take_while_app isdigit i) by (auto using digits_b). rewrite skipn_app_exact.
  destruct Ff as [-> | (d & -> & Fd)]; cbn [app].
  - pose proof (exp_no_point x s Fx SW) as NP.
    assert (NI : i <> []) by (destruct NE as [H|(c & r & H)]; [exact H|discriminate]).
    destruct i as [|i0 i]; [congruence|].
    replace ((i0 :: i) ++ x) with ((i0 :: i) ++ exponent marks (x ++ s)) by (rewrite exponent_exact; auto).
    destruct (x ++ s) as [|c r]; [reflexivity|]. destruct (N.eq_dec c 46) as [->|NE']; [contradiction|].
    destruct c as [|p]; [reflexivity|]. do 6 (destruct p as [p|p|]; try reflexivity). congruence.
  - rewrite (take_while_app isdigit d) by (auto using digits_b, exp_cuts). rewrite skipn_app_exact. rewrite exponent_exact by auto.
    destruct i as [|i0 i]; [|reflexivity].
    destruct d as [|d0 d]; [|reflexivity]. destruct NE as [H|(c & r & H)]; [congruence|discriminate].
Qed.
Lemma decimal_start w : decimal w -> exists c r, w = c :: r /\ isdigit c || (c =? 46) = true.
Proof.
  intros (i & f & x & -> & Fi & Ff & _ & [NE | (c & r & ->)]).
  - destruct i as [|i0 i]; [congruence|]. exists i0, (i ++ f ++ x). split; [reflexivity|]. apply Forall_inv in Fi. apply digit_b in Fi. rewrite Fi. reflexivity.
  - destruct i as [|i0 i].
    + exists 46, ((c :: r) ++ x). split; reflexivity.
    + exists i0, (i ++ (46 :: c :: r) ++ x). split; [reflexivity|]. apply Forall_inv in Fi. apply digit_b in Fi. rewrite Fi. reflexivity.
Qed.
Lemma decimal_not_hex i f x s : Forall digit i -> fraction f -> exp_part x -> stop_word s ->
  forall c y r, i ++ f ++ x ++ s = c :: y :: r -> isdigit c = true -> (y =? 120) || (y =? 88) = false.
Proof.
  intros Fi Ff Fx SW c y r E D.
  assert (G : forall t, (exists u, t = u ++ s /\ Forall (fun b => digit b \/ b = 46 \/ b = 101 \/ b = 69 \/ b = 43 \/ b = 45) u) -> forall a q, t = a :: q -> (a =? 120) || (a =? 88) = false).
  { intros t (u & -> & Fu) a q Et. destruct u as [|u0 u]; cbn [app] in Et.
    - subst s. cbn in SW. unfold wordy in SW. lia.
    - injection Et as -> _. apply Forall_inv in Fu. unfold digit in Fu. lia. }
  assert (Fall : Forall (fun b => digit b \/ b = 46 \/ b = 101 \/ b = 69 \/ b = 43 \/ b = 45) (i ++ f ++ x)).
  { apply Forall_app; split; [eapply Forall_impl; [|exact Fi]; cbn; auto|]. apply Forall_app; split.
    - destruct Ff as [-> | (d & -> & Fd)]; [constructor|]. constructor; [auto|]. eapply Forall_impl; [|exact Fd]; cbn; auto.
    - destruct Fx as [-> | (m & g & d & -> & Hm & Hg & _ & Fd)]; [constructor|]. constructor; [lia|]. apply Forall_app; split.
      + destruct Hg as [-> | [-> | ->]]; repeat constructor; lia.
      + eapply Forall_impl; [|exact Fd]; cbn; auto. }
  replace (i ++ f ++ x ++ s) with ((i ++ f ++ x) ++ s) in E by (rewrite <- !app_assoc; reflexivity).
  destruct (i ++ f ++ x) as [|u0 u] eqn:U; cbn [app] in E.
  - subst s. cbn in SW. exfalso. apply SW. unfold wordy, isdigit in *. lia.
  - injection E as -> E. apply (G (u ++ s)) with (q := r); [exists u; split; [reflexivity|]|exact E]. apply Forall_inv_tail in Fall. exact Fall.
Qed.
Lemma literal_mantissa s : (forall c y r, s = c :: y :: r -> isdigit c = true -> (y =? 120) || (y =? 88) = false) -> literal s = mantissa isdigit marks s.
Proof.
  intro H. unfold literal. destruct s as [|c [|y r]]; [reflexivity| |].
  - destruct c as [|p]; [reflexivity|]. do 6 (destruct p as [p|p|]; try reflexivity).
  - destruct (N.eq_dec c 48) as [->|NE].
    + rewrite (H 48 y r) by reflexivity. reflexivity.
    + destruct c as [|p]; [reflexivity|]. do 6 (destruct p as [p|p|]; try reflexivity). congruence.
Qed.
Lemma literal_exact w s : decimal w -> stop_word s -> literal (w ++ s) = w.
Proof.
  intros (i & f & x & -> & Fi & Ff & Fx & NE) SW. replace ((i ++ f ++ x) ++ s) with (i ++ f ++ x ++ s) by (rewrite <- !app_assoc; reflexivity).
  rewrite literal_mantissa by (apply decimal_not_hex; auto). apply mantissa_exact; auto.
Qed.
Lemma literal_hex w s : hexadecimal w -> stop_word s -> literal (w ++ s) = w.
Proof.
  intros (x & d & -> & X & NE & F) SW. cbn [app]. unfold literal. replace ((x =? 120) || (x =? 88)) with true by (destruct X as [-> | ->]; reflexivity).
  assert (C : cuts ishex s) by (destruct s as [|c s]; [exact Logic.I|]; cbn in *; unfold wordy, ishex, isdigit in *; lia).
  assert (E : mantissa ishex (fun c => (c =? 112) || (c =? 80)) (d ++ s) = d).
  { unfold mantissa. rewrite (take_while_app ishex d); [|eapply Forall_impl; [|exact F]; intros c; unfold hex_digit, digit, ishex, isdigit; lia|exact C]. rewrite skipn_app_exact.
    assert (X0 : exponent (fun c => (c =? 112) || (c =? 80)) s = []) by (destruct s as [|c s]; [reflexivity|]; cbn in SW; unfold wordy in SW; cbn [exponent]; replace ((c =? 112) || (c =? 80)) with false by lia; reflexivity).
    destruct d as [|d0 d]; [congruence|]. destruct s as [|c s]; [cbn; rewrite app_nil_r; reflexivity|]. destruct (N.eq_dec c 46) as [->|NE']; [cbn in SW; unfold wordy in SW; lia|].
    transitivity ((d0 :: d) ++ exponent (fun c => (c =? 112) || (c =? 80)) (c :: s)); [clear X0|rewrite X0, app_nil_r; reflexivity].
    destruct c as [|p]; [reflexivity|]. do 6 (destruct p as [p|p|]; try reflexivity). congruence. }
  rewrite E. destruct d; [congruence|reflexivity].
Qed.
Lemma lex_skip w s : lex (length w) (w ++ s) = lex 0 s.
Proof. induction w as [|c w IH]; cbn [length app]; [reflexivity|]. cbn [lex]. exact IH. Qed.
Lemma named_get w k : named w k -> get_function w = Some k.
Proof.
  destruct k as [|[|[|k]]]; cbn [named]; [| | |contradiction]; intro H;
  repeat (destruct H as [<-|H]; [reflexivity|]); contradiction.
Qed.
Lemma named_word w k : named w k -> Forall (fun c => isword c = true) w /\ exists c r, w = c :: r /\ isalpha c = true /\ isdigit c || (c =? 46) = false.
Proof.
  assert (B : forall w, forallb isword w && match w with c :: _ => isalpha c && negb (isdigit c || (c =? 46)) | [] => false end = true ->
    Forall (fun c => isword c = true) w /\ exists c r, w = c :: r /\ isalpha c = true /\ isdigit c || (c =? 46) = false).
  { intros v E. apply andb_true_iff in E. destruct E as [E1 E2]. split; [apply Forall_forall; apply forallb_forall; exact E1|].
    destruct v as [|c r]; [discriminate|]. exists c, r. apply andb_true_iff in E2. destruct E2 as [E2 E3]. apply negb_true_iff in E3. auto. }
  destruct k as [|[|[|k]]]; cbn [named]; [| | |contradiction]; intro H;
  repeat (destruct H as [<-|H]; [apply B; reflexivity|]); contradiction.
Qed.
Lemma stop_isword s : stop_word s -> cuts isword s.
Proof. destruct s as [|c s]; cbn; auto. unfold wordy, isword, isalpha, isdigit. lia. Qed.

Lemma lex_token t w s : spells t w -> ends t s -> lex 0 (w ++ s) = t :: lex 0 s.
Proof.
  intros S E. destruct S; try reflexivity.
  - destruct (decimal_start _ H) as (c & r & -> & K). cbn [ends] in E.
    pose proof (literal_exact _ _ H E) as L.
    cbn [app] in *. cbn [lex]. rewrite K. rewrite L. cbn [length]. rewrite Nat.sub_succ, Nat.sub_0_r. rewrite lex_skip. reflexivity.
  - destruct H as (x & d & -> & X & NE & F). cbn [ends] in E. assert (H : hexadecimal (48 :: x :: d)) by (exists x, d; auto).
    pose proof (literal_hex _ _ H E) as L. cbn [app] in *. cbn [lex]. change (isdigit 48 || (48 =? 46)) with true. cbv iota. rewrite L. cbn [length]. rewrite Nat.sub_succ, Nat.sub_0_r. change (x :: d ++ s) with ((x :: d) ++ s). change (S (length d)) with (length (x :: d)). rewrite lex_skip. reflexivity.
  - destruct (named_word _ _ H) as (F & c & r & -> & A & D). cbn [ends] in E.
    assert (T : take_while isword ((c :: r) ++ s) = c :: r) by (apply take_while_app; [exact F|apply stop_isword; exact E]).
    cbn [app] in *. cbn [lex]. rewrite D, A. rewrite T. rewrite (named_get _ _ H). cbn [length]. rewrite Nat.sub_succ, Nat.sub_0_r. rewrite lex_skip. reflexivity.
Qed.
Lemma lex_blanks bl s : blanks bl -> lex 0 (bl ++ s) = lex 0 s.
Proof. induction 1 as [|c bl H F IH]; [reflexivity|]. cbn [app lex]. destruct H as [-> | ->]; cbn; exact IH. Qed.
Lemma lex_written ts s : written ts s -> lex 0 s = ts.
Proof.
  induction 1.
  - rewrite <- (app_nil_r bl). rewrite lex_blanks by auto. reflexivity.
  - rewrite lex_blanks by auto. rewrite (lex_token t) by auto. rewrite IHwritten. reflexivity.
Qed.

Lemma evaluate_written (A : alg) ts s v : written ts s -> (evaluate A s = Some v <-> exists t, derives LList ts t /\ v = eval A t).
Proof.
  intro W. apply lex_written in W. unfold evaluate. split.
  - destruct (compile s) as [t|] eqn:C; [|discriminate]. cbn. intro E. injection E as <-. exists t. split; [|reflexivity].
    apply compile_derives in C. rewrite W in C. exact C.
  - intros (t & D & ->). rewrite <- W in D. apply compile_derives in D. rewrite D. reflexivity.
Qed.

(** ** integers of the factorial *)
Lemma fold_left_mapped {A B C} (f : A -> B -> A) (g : C -> B) l : forall a, fold_left f (map g l) a = fold_left (fun x y => f x (g y)) l a.
Proof. induction l as [|y l IH]; intro a; cbn [map fold_left]; auto. Qed.
Lemma factorial_loop_mod k : forall i r, factorial_loop k i r mod 2 ^ 64 = fold_left (fun a j => a * (i + N.of_nat j)) (seq 0 k) r mod 2 ^ 64.
Proof.
  induction k as [|k IH]; intros i r; [reflexivity|].
  cbn [factorial_loop seq fold_left]. rewrite IH. rewrite <- seq_shift, fold_left_mapped.
  assert (G : forall l a b, a mod 2 ^ 64 = b mod 2 ^ 64 -> fold_left (fun x j => x * (i + 1 + N.of_nat j)) l a mod 2 ^ 64 = fold_left (fun x j => x * (i + N.of_nat (S j))) l b mod 2 ^ 64).
  { induction l as [|y l IHl]; intros a b E; [exact E|]. cbn [fold_left]. apply IHl.
    replace (i + N.of_nat (S y)) with (i + 1 + N.of_nat y) by lia.
    rewrite N.mul_mod, E, <- N.mul_mod by (apply N.pow_nonzero; lia). reflexivity. }
  apply G. rewrite N.mod_mod by (apply N.pow_nonzero; lia). replace (i + N.of_nat 0) with i by lia. reflexivity.
Qed.
Lemma factorial_loop_lt k i r : r < 2 ^ 64 -> factorial_loop k i r < 2 ^ 64.
Proof. revert i r; induction k as [|k IH]; intros i r H; [exact H|]. cbn [factorial_loop]. apply IH. apply N.mod_lt. apply N.pow_nonzero; lia. Qed.
(** k * (k+1) ... *)
Lemma rising k : forall i r, fold_left (fun a j => a * (i + N.of_nat j)) (seq 0 k) r = r * fold_left (fun a j => a * (i + N.of_nat j)) (seq 0 k) 1.
Proof.
  intros i. generalize (seq 0 k). induction l as [|y l IH]; intro r; cbn [fold_left]; [lia|]. rewrite IH. rewrite (IH (1 * _)). lia.
Qed.
Lemma rising_fact k : forall m, fold_left (fun a j => a * (N.of_nat (S m) + N.of_nat j)) (seq 0 k) 1 * N.of_nat (fact m) = N.of_nat (fact (m + k)).
Proof.
  induction k as [|k IH]; intro m.
  - cbn [seq fold_left]. rewrite Nat.add_0_r. lia.
  - rewrite seq_S, fold_left_app. cbn [fold_left]. rewrite Nat.add_0_l.
    replace (m + S k)%nat with (S (m + k)) by lia.
    change (fact (S (m + k))) with ((S (m + k)) * fact (m + k))%nat. rewrite Nat2N.inj_mul, <- IH. lia.
Qed.
Lemma factorial_ul_spec n : factorial_ul (N.of_nat n) = N.of_nat (fact n) mod 2 ^ 64.
Proof.
  unfold factorial_ul. rewrite Nat2N.id.
  rewrite <- (N.mod_small (factorial_loop n 1 1) (2 ^ 64)) by (apply factorial_loop_lt; reflexivity).
  rewrite factorial_loop_mod. f_equal. pose proof (rising_fact n 0) as Q. change (N.of_nat (fact 0)) with 1 in Q. rewrite N.mul_1_r in Q. exact Q.
Qed.
Lemma pnm_ul_spec n m : (m <= n)%nat -> exists p, p * N.of_nat (fact (n - m)) = N.of_nat (fact n) /\ pnm_ul (N.of_nat n) (N.of_nat m) = p mod 2 ^ 64.
Proof.
  intro L. exists (fold_left (fun a j => a * (N.of_nat (S (n - m)) + N.of_nat j)) (seq 0 m) 1). split.
  - rewrite rising_fact. f_equal. f_equal. lia.
  - unfold pnm_ul. rewrite N.min_r, N.max_l by lia. rewrite Nat2N.id.
    replace (N.of_nat n - N.of_nat m + 1) with (N.of_nat (S (n - m))) by lia.
    rewrite <- (N.mod_small (factorial_loop m _ 1) (2 ^ 64)) by (apply factorial_loop_lt; reflexivity).
    apply factorial_loop_mod.
Qed.

(** ** every expression can be written *)
Lemma written_spaced ts ws : Forall2 spells ts ws -> written ts (concat (map (fun w => w ++ [32]) ws)).
Proof.
  induction 1 as [|t w ts ws S F IH]; [apply W_end; constructor|].
  cbn [map concat]. rewrite <- app_assoc. cbn [app]. change (w ++ 32 :: concat (map (fun w0 => w0 ++ [32]) ws)) with ([] ++ w ++ ([32] ++ concat (map (fun w0 => w0 ++ [32]) ws))).
  apply W_token; [constructor|exact S| |].
  - destruct t; cbn; auto; unfold wordy; lia.
  - destruct ts as [|t2 ts].
    + inversion F; subst. cbn. apply W_end. repeat constructor. 
    + inversion IH; subst. rewrite app_assoc. apply W_token; auto. apply Forall_app; split; [repeat constructor|]; auto.
Qed.
Lemma written_exists ts : Forall (fun t => exists w, spells t w) ts -> exists s, written ts s.
Proof.
  intro F. assert (G : exists ws, Forall2 spells ts ws).
  { induction F as [|t ts (w & H) F (ws & IH)]; [exists []; constructor|]. exists (w :: ws). constructor; auto. }
  destruct G as (ws & G). eexists. apply written_spaced. exact G.
Qed.
Lemma pre_fac ts t : derives LAtom ts t -> derives LPower ts t.
Proof. intro D. change ts with ([] ++ ts). change t with (if Nat.odd (minuses []) then App1 (str "negate") t else t). apply D_signs; [constructor|]. apply D_fac, D_atom, D. Qed.
Lemma atom_factor ts t : derives LAtom ts t -> derives LFactor ts t.
Proof. intro. apply D_power, pre_fac; auto. Qed.
Lemma atom_term ts t : derives LAtom ts t -> derives LTerm ts t.
Proof. intro. apply D_factor, atom_factor; auto. Qed.
Lemma atom_expr ts t : derives LAtom ts t -> derives LExpr ts t.
Proof. intro. apply D_term, atom_term; auto. Qed.
Lemma pre_list ts t : derives LPre ts t -> derives LList ts t.
Proof.
  intro D. apply D_expr, D_term, D_factor, D_power. change ts with ([] ++ ts). change t with (if Nat.odd (minuses []) then App1 (str "negate") t else t). apply D_signs; [constructor|exact D].
Qed.
Lemma tree_written t : wellformed t -> exists ts, derives LAtom ts t /\ Forall (fun x => exists w, spells x w) ts.
Proof.
  assert (SO : exists w, spells TOpen w) by (eexists; constructor). assert (SC : exists w, spells TClose w) by (eexists; constructor).
  assert (SM : exists w, spells TComma w) by (eexists; constructor).
  induction t as [s|f|f a IHa|f a IHa b IHb]; cbn [wellformed]; intro W.
  - exists [TNum s]. split; [constructor|]. constructor; [|constructor]. exists s. destruct W; [apply S_num|apply S_hex]; auto.
  - exists [TFun f 0]. split; [constructor|]. constructor; [|constructor]. exists f. constructor; auto.
  - destruct W as [N W]. destruct (IHa W) as (ta & Da & Fa).
    exists (TOpen :: (TFun f 1 :: ta) ++ [TClose]). split.
    + apply D_paren, pre_list, D_fun1, pre_fac, Da.
    + constructor; [exact SO|]. cbn [app]. constructor; [exists f; constructor; auto|]. apply Forall_app; split; auto.
  - destruct W as [[N|N] [Wa Wb]]; destruct (IHa Wa) as (ta & Da & Fa); destruct (IHb Wb) as (tb & Db & Fb).
    + exists (TFun f 2 :: TOpen :: ta ++ TComma :: tb ++ [TClose]). split.
      * apply D_fun2; apply atom_expr; auto.
      * constructor; [exists f; constructor; auto|]. constructor; [exact SO|]. apply Forall_app; split; auto. constructor; [exact SM|]. apply Forall_app; split; auto.
    + assert (G : forall o, derives LExpr (ta ++ o :: tb) (App2 f a b) -> (exists w, spells o w) -> exists ts, derives LAtom ts (App2 f a b) /\ Forall (fun x => exists w, spells x w) ts).
      { intros o D S. exists (TOpen :: (ta ++ o :: tb) ++ [TClose]). split; [apply D_paren, D_expr, D|].
        constructor; [exact SO|]. apply Forall_app; split; [|auto]. apply Forall_app; split; auto. }
      destruct N as [<-|[<-|[<-|[<-|[]]]]].
      * apply (G TAdd); [apply D_add; auto using atom_expr, atom_term|eexists; constructor].
      * apply (G TSub); [apply D_sub; auto using atom_expr, atom_term|eexists; constructor].
      * apply (G (TMul (str "*"))); [apply D_term, D_mul; auto using atom_factor, atom_term|eexists; constructor].
      * apply (G (TMul (str "/"))); [apply D_term, D_mul; auto using atom_factor, atom_term|eexists; constructor].
Qed.
Lemma tree_text t : wellformed t -> exists ts s, written ts s /\ derives LList ts t.
Proof.
  intro W. destruct (tree_written t W) as (ts & D & F). destruct (written_exists ts F) as (s & Ws). exists ts, s. split; [exact Ws|].
  apply D_expr, atom_expr, D.
Qed.

Lemma fact_N n : N.of_nat (fact (S n)) = N.of_nat (S n) * N.of_nat (fact n).
Proof. change (fact (S n)) with (S n * fact n)%nat. apply Nat2N.inj_mul. Qed.
Lemma fact_20 : N.of_nat (fact 20) = 2432902008176640000.
Proof. rewrite !fact_N. reflexivity. Qed.
Lemma fact_21 : N.of_nat (fact 21) = 51090942171709440000.
Proof. rewrite !fact_N. reflexivity. Qed.
Lemma factorial_exact n : (n <= 20)%nat -> factorial_ul (N.of_nat n) = N.of_nat (fact n).
Proof.
  intro L. rewrite factorial_ul_spec. apply N.mod_small. apply N.le_lt_trans with (N.of_nat (fact 20)); [|rewrite fact_20; reflexivity].
  assert (M : (fact n <= fact 20)%nat) by (apply fact_le; exact L). revert M. generalize (fact n) (fact 20). intros; lia.
Qed.
Lemma factorial_wrap : factorial_ul (N.of_nat 21) <> N.of_nat (fact 21).
Proof. rewrite fact_21. vm_compute. discriminate. Qed.
Lemma pnm_exact n m : (m <= n)%nat -> (n <= 20)%nat -> pnm_ul (N.of_nat n) (N.of_nat m) * N.of_nat (fact (n - m)) = N.of_nat (fact n).
Proof.
  intros L L20. destruct (pnm_ul_spec n m L) as (p & E & ->). rewrite N.mod_small; [exact E|].
  apply N.le_lt_trans with (N.of_nat (fact n)).
  - rewrite <- E. pose proof (lt_O_fact (n - m)). nia.
  - apply N.le_lt_trans with (N.of_nat (fact 20)); [|rewrite fact_20; reflexivity].
    assert (M : (fact n <= fact 20)%nat) by (apply fact_le; exact L20). revert M. generalize (fact n) (fact 20). intros; lia.
Qed.
