From Coq Require Import List NArith ZArith Bool Arith Lia.
From Verif Require Import Base RunnerModel JunitModel JunitSpec JunitProofs ListingModel ListingSpec ListingProofs ConsoleModel ConsoleSpec.
Import ListNotations.
Local Open Scope N_scope.

(** * Texts *)
Lemma digits_still : forall s, Forall (fun c => 48 <= c <= 57) s -> still s.
Proof. intros s F. eapply Forall_impl; [|exact F]. cbv beta. intros c H. lia. Qed.
Lemma dec_still : forall n, still (dec n).
Proof. intro n. apply digits_still. apply (dec_ok n). Qed.
Lemma still_app : forall a b, still a -> still b -> still (a ++ b).
Proof. intros. apply Forall_app. split; assumption. Qed.
Definition still_b (s : bytes) : bool := forallb (fun c => negb (c =? 0) && negb (c =? 10) && negb (c =? 13) && negb (c =? 27)) s.
Lemma still_word : forall s, still_b s = true -> still s.
Proof.
  intros s H. unfold still_b in H. rewrite forallb_forall in H. apply Forall_forall. intros c I. specialize (H c I). rewrite !andb_true_iff, !negb_true_iff, !N.eqb_neq in H. tauto.
Qed.
Lemma still_nil : still []. Proof. constructor. Qed.
Ltac still1 := first [assumption | apply dec_still | apply still_nil | (apply still_word; reflexivity)].
Ltac stills := repeat first [still1 | match goal with |- still (?a ++ ?b) => apply (still_app a b) end | match goal with |- still (if ?b then _ else _) => destruct b end].

Lemma digits_of_ok : forall k n, length (digits_of k n) = k /\ Forall (fun c => 48 <= c <= 57) (digits_of k n) /\ fold_left (fun a c => 10 * a + (c - 48)) (digits_of k n) 0 = n mod 10 ^ N.of_nat k.
Proof.
  induction k as [|k IH]; intro n.
  - cbn. split; [reflexivity|]. split; [constructor|]. rewrite N.mod_1_r. reflexivity.
  - destruct (IH (n / 10)) as (A & B & C). cbn [digits_of]. pose proof (N.mod_upper_bound n 10 ltac:(discriminate)) as U. split; [rewrite app_length, A; cbn; lia|]. split.
    + apply Forall_app. split; [exact B|]. constructor; [|constructor]. revert U. generalize (n mod 10). intros; lia.
    + rewrite fold_left_app, C. cbn [fold_left]. rewrite Nat2N.inj_succ, N.pow_succ_r'. rewrite N.mod_mul_r by (try discriminate; apply N.pow_nonzero; discriminate). revert U. generalize (n mod 10), ((n / 10) mod 10 ^ N.of_nat k). intros; lia.
Qed.
Lemma fixed_ok : forall up k num den, den <> 0 -> approximately k num den (fixed up k num den).
Proof.
  intros up k num den D. unfold fixed. set (v := nearest up (N.of_nat k) num den). set (p := 10 ^ N.of_nat k).
  assert (P : p <> 0) by (apply N.pow_nonzero; discriminate).
  destruct (digits_of_ok k (v mod p)) as (A & B & C). fold p in C. rewrite N.mod_mod in C by exact P.
  exists v, (dec (v / p)), (digits_of k (v mod p)). split; [reflexivity|]. split; [apply dec_ok|]. split; [exact A|]. split; [exact B|]. split; [exact C|]. fold p.
  subst v. unfold nearest. fold p. set (a := num * p). pose proof (N.div_mod a den D) as E. pose proof (N.mod_upper_bound a den D) as U.
  set (q := a / den) in *. set (r := a mod den) in *. clearbody q r a. rewrite N.mul_comm in E. set (z := q * den) in *.
  assert (Z1 : (q + 1) * den = z + den) by (unfold z; lia).
  destruct (N.ltb_spec (2 * r) den); [fold z; lia|]. destruct (N.ltb_spec den (2 * r)); [rewrite Z1; lia|]. destruct (up num den); [rewrite Z1|fold z]; lia.
Qed.
Lemma fixed_still : forall up k num den, still (fixed up k num den).
Proof. intros. unfold fixed. stills. apply digits_still. apply digits_of_ok. Qed.
Lemma duration_ok : forall l ms, duration ms (format_duration l ms).
Proof.
  intros l ms. unfold duration, format_duration. change (1000 * 60) with 60000. change (60000 * 60) with 3600000.
  split; [|split; [|split]]; intro H;
    destruct (N.ltb_spec ms 100); try lia; destruct (N.ltb_spec ms 60000); try lia; destruct (N.ltb_spec ms 3600000); try lia.
  1-4: try (exists (dec ms); split; [apply dec_ok|reflexivity]); try (eexists; split; [apply fixed_ok; discriminate|reflexivity]).
Qed.
Lemma duration_still : forall l ms, still (format_duration l ms).
Proof. intros. unfold format_duration. stills; apply fixed_still. Qed.
Lemma volume_ok : forall l n, volume n (format_volume l n).
Proof.
  intros l n. unfold volume, format_volume. change (1024 * 1024 * 1024) with (2 ^ 30). change (1024 * 1024) with (2 ^ 20). change 1024 with (2 ^ 10).
  assert (Q : 2 ^ 10 < 2 ^ 20 /\ 2 ^ 20 < 2 ^ 30) by (split; reflexivity). set (x := 2 ^ 10) in *. set (y := 2 ^ 20) in *. set (z := 2 ^ 30) in *.
  split; [|split; [|split]]; intro H; destruct (N.ltb_spec n x); try lia; destruct (N.ltb_spec n y); try lia; destruct (N.ltb_spec n z); try lia.
  1: apply dec_ok. all: eexists; split; [apply fixed_ok; discriminate|reflexivity].
Qed.
Lemma volume_still : forall l n, still (format_volume l n).
Proof. intros. unfold format_volume. stills; apply fixed_still. Qed.
Lemma format_units_eq : forall n u, format_units n (32 :: u) = dec n ++ str " " ++ plural n u.
Proof. intros. unfold format_units, plural. destruct (N.ltb_spec 1 n), (N.leb_spec n 1); try lia; cbn [app str]; rewrite ?app_nil_r; reflexivity. Qed.
Lemma numbered_ok : forall n u, numbered n u (format_units n (32 :: u)).
Proof. intros. exists (dec n). split; [apply dec_ok|apply format_units_eq]. Qed.
Lemma units_still : forall n u, still u -> still (format_units n u).
Proof. intros. unfold format_units. stills. Qed.

Lemma basefile_still : forall p, still p -> still (basefile p).
Proof.
  intros p H. destruct (basefile_part p) as (_ & [E|(b & c & E & _)]); [rewrite <- E; exact H|]. rewrite E in H. apply Forall_app in H as [_ H]. inversion H. assumption.
Qed.
Lemma bar_still : still bar. Proof. apply still_word. reflexivity. Qed.
Lemma or_else_still : forall a b, still a -> still b -> still (or_else a b).
Proof. intros [|c a] b A B; [exact B|exact A]. Qed.
Lemma titled_still : forall a b, still a -> still b -> still (titled a b).
Proof. intros. unfold titled. stills; first [apply bar_still|apply or_else_still; stills]. Qed.
Lemma format_title_none : forall s c, format_title s c None = titled s c.
Proof. intros. unfold format_title, titled, or_else. rewrite app_nil_r. reflexivity. Qed.
Lemma format_title_some : forall s c f, format_title s c (Some f) = titled s c ++ bar ++ f ++ str " ".
Proof. intros. unfold format_title, titled, or_else. rewrite <- !app_assoc. reflexivity. Qed.
Definition pct (l : look) (i : N) : bytes := if progressing l then format_percentage l (mkcon i 0 0 false []) else [].
Lemma pct_ok : forall l i, percentage l i (pct l i).
Proof. intros. unfold percentage, pct. destruct (progressing l); [|reflexivity]. eexists. split; [apply dec_ok|]. unfold format_percentage. cbn [index]. reflexivity. Qed.
Lemma pct_still : forall l i, still (pct l i).
Proof.
  intros. unfold pct. destruct (progressing l); [|apply still_nil]. unfold format_percentage. stills. apply Forall_forall. intros c C. apply repeat_spec in C. subst c. lia.
Qed.

(** * The terminal *)
Definition t0 : terminal := mkterm [] [] [] Plain.
Definition zeros (s : bytes) : Prop := Forall (fun c => c = 0) s.
Lemma typed_app : forall a b t, typed (a ++ b) t = typed b (typed a t).
Proof. intros. apply fold_left_app. Qed.
Lemma zeros_skipn : forall n s, zeros s -> zeros (skipn n s).
Proof. induction n; intros [|c s] H; cbn; auto. inversion H. apply IHn. assumption. Qed.
Lemma typed_still : forall b D a r, still b -> typed b (mkterm D a r Plain) = mkterm D (a ++ b) (skipn (length b) r) Plain.
Proof.
  induction b as [|c b IH]; intros D a r H; cbn [length skipn]; [rewrite app_nil_r; reflexivity|]. inversion H as [|? ? (A & B & C & E) H2]; subst.
  unfold typed in *. cbn [fold_left]. unfold type_byte at 2. cbn [md done left right].
  apply N.eqb_neq in B, C, E. rewrite B, C, E. rewrite IH by exact H2. rewrite <- app_assoc. cbn [app]. f_equal. destruct r; [destruct (length b)|]; reflexivity.
Qed.
Lemma trim_zeros : forall r, zeros r -> trim r = [].
Proof. induction r as [|c r IH]; intro H; [reflexivity|]. inversion H; subst. cbn. rewrite IH by assumption. reflexivity. Qed.
Lemma trim_still : forall a r, still a -> zeros r -> trim (a ++ r) = a.
Proof.
  induction a as [|c a IH]; intros r A Z; cbn [app]; [apply trim_zeros, Z|]. inversion A as [|? ? (X & _) A2]; subst. cbn [trim]. rewrite IH by assumption.
  destruct a; [|reflexivity]. apply N.eqb_neq in X. rewrite X. reflexivity.
Qed.
Lemma typed_newline : forall D a r, still a -> zeros r -> typed [10] (mkterm D a r Plain) = mkterm (D ++ [a]) [] [] Plain.
Proof. intros. unfold typed. cbn. rewrite trim_still by assumption. reflexivity. Qed.
Lemma typed_clear : forall D a r, exists z, zeros z /\ typed clear_line (mkterm D a r Plain) = mkterm D [] z Plain.
Proof.
  intros. eexists. split; [|reflexivity]. apply Forall_app. split; apply Forall_forall; intros c C; apply repeat_spec in C; exact C.
Qed.
Lemma lines_cons : forall s, exists x y, lines s = x :: y.
Proof. intros [|c s]; cbn; eauto. destruct (c =? 10); eauto. destruct (lines s); eauto. Qed.
Lemma removelast_cons : forall A (x : A) l, l <> [] -> removelast (x :: l) = x :: removelast l.
Proof. intros A x [|y l] H; [congruence|reflexivity]. Qed.
(** lines of a text *)
Lemma typed_lines : forall s D a r, lines_only s -> still a -> zeros r ->
  exists D2 b r2, typed s (mkterm D a r Plain) = mkterm (D ++ D2) b r2 Plain /\ zeros r2 /\ D2 ++ [b] = (match lines s with x :: y => (a ++ x) :: y | [] => [] end) /\ still b.
Proof.
  induction s as [|c s IH]; intros D a r H A Z0.
  - exists [], a, r. cbn. rewrite !app_nil_r. auto.
  - inversion H as [|? ? (X & Y & Z) H2]; subst. change (c :: s) with ([c] ++ s). rewrite typed_app. cbn [app lines]. destruct (N.eqb_spec c 10) as [->|E].
    + rewrite typed_newline by auto. destruct (IH (D ++ [a]) [] [] H2 still_nil ltac:(constructor)) as (D2 & b & r2 & P & Z2 & Q & R). exists (a :: D2), b, r2. rewrite P, <- app_assoc. split; [reflexivity|]. split; [exact Z2|]. split; [|exact R].
      cbn [app]. rewrite Q, app_nil_r. destruct (lines_cons s) as (x & y & ->). reflexivity.
    + assert (SC : still [c]) by (constructor; [auto|constructor]). rewrite typed_still by exact SC.
      destruct (IH D (a ++ [c]) (skipn (length [c]) r) H2 (still_app _ _ A SC) (zeros_skipn _ _ Z0)) as (D2 & b & r2 & P & Z2 & Q & R). exists D2, b, r2. rewrite P. split; [reflexivity|]. split; [exact Z2|]. split; [|exact R]. rewrite Q.
      destruct (lines_cons s) as (x & y & ->). rewrite <- app_assoc. reflexivity.
Qed.

(** * The report *)
(** the terminal shows [L] and the line begun is [cur]; nothing written by tests since *)
Definition ready (s : con) (L : list bytes) (cur : bytes) : Prop :=
  last s = cap s /\ exists r, zeros r /\ typed (dev s) t0 = mkterm L cur r Plain.
(** the lines so far are [L], the last of which may be unfinished *)
Definition inv (s : con) (L : list bytes) : Prop :=
  exists D cur r, typed (dev s) t0 = mkterm D cur r Plain /\ zeros r /\ (if last s =? cap s then D = L else D ++ [cur] = L /\ still cur).
Lemma ready_inv : forall s L cur, ready s L cur -> inv s L.
Proof. intros s L cur (E & r & Z & T). exists L, cur, r. rewrite E, N.eqb_refl. auto. Qed.
Lemma emit_still : forall s L cur b, still b -> ready s L cur -> ready (emit b s) L (cur ++ b).
Proof. intros s L cur b B (E & r & Z & T). split; [exact E|]. exists (skipn (length b) r). split; [apply zeros_skipn, Z|]. cbn [emit dev]. rewrite typed_app, T, typed_still by exact B. reflexivity. Qed.
Lemma emit_newline : forall s L cur, still cur -> ready s L cur -> ready (emit [10] s) (L ++ [cur]) [].
Proof. intros s L cur C (E & r & Z & T). split; [exact E|]. exists []. split; [constructor|]. cbn [emit dev]. rewrite typed_app, T, typed_newline by assumption. reflexivity. Qed.
Lemma emit_line : forall s L cur b, still b -> still cur -> ready s L cur -> ready (emit (b ++ [10]) s) (L ++ [cur ++ b]) [].
Proof.
  intros s L cur b B C R. pose proof (emit_newline _ _ _ (still_app _ _ C B) (emit_still _ _ _ _ B R)) as H. destruct H as (E & r & Z & T). split; [exact E|]. exists r. split; [exact Z|].
  cbn [emit dev] in *. rewrite app_assoc. exact T.
Qed.
Lemma emit_lines : forall ds s L, Forall still ds -> ready s L [] -> ready (emit (concat (map (fun d => d ++ [10]) ds)) s) (L ++ ds) [].
Proof.
  induction ds as [|d ds IH]; intros s L F R; cbn [map concat].
  - rewrite app_nil_r. destruct R as (E & r & Z & T). split; [exact E|]. exists r. cbn [emit dev]. rewrite app_nil_r. auto.
  - inversion F; subst. pose proof (IH _ _ H2 (emit_line s L [] d H1 still_nil R)) as X. cbn [app] in X. rewrite <- app_assoc in X. destruct X as (E & r & Z & T). split; [exact E|].
    exists r. split; [exact Z|]. cbn [emit dev] in *. rewrite <- app_assoc in T. exact T.
Qed.
Lemma bar_ok : forall l pc w ti bk s L, still w -> still ti -> still_fit l -> inv s L ->
  let s2 := print_bar l pc w ti bk s in
  index s2 = index s /\ cap s2 = cap s /\ back s2 = progressing l && bk /\
  ready s2 L (if negb (progressing l) && bk then [] else let b := (if pc then pct l (index s) else []) ++ w ++ ti in if bk then fit l b else b).
Proof.
  intros l pc w ti bk s L W Ti F (D & cur & r & T & Z & H).
  set (s1 := emit (if last s =? cap s then clear_line else [10]) s). set (s3 := mkcon (index s1) (cap s1) (cap s1) (progressing l && bk) (dev s1)).
  assert (R : ready s3 L []).
  { split; [reflexivity|]. unfold s3, s1. cbn [emit dev]. rewrite typed_app, T. destruct (last s =? cap s).
    - subst L. destruct (typed_clear D cur r) as (z & Zz & E). exists z. auto.
    - destruct H as (<- & C). exists []. split; [constructor|]. apply typed_newline; assumption. }
  unfold print_bar. fold s1. fold s3. destruct (negb (progressing l) && bk) eqn:B; cbn zeta.
  - split; [reflexivity|]. split; [reflexivity|]. split; [reflexivity|exact R].
  - split; [reflexivity|]. split; [reflexivity|]. split; [reflexivity|].
    assert (P : (if pc && progressing l then format_percentage l s3 else []) = if pc then pct l (index s) else []).
    { unfold pct. destruct pc, (progressing l); reflexivity. }
    rewrite P. change (ready (emit ?b s3)) with (ready (emit b s3)). set (b := (if pc then pct l (index s) else []) ++ w ++ ti).
    assert (SB : still b) by (unfold b; destruct pc; stills; apply pct_still).
    destruct bk; match goal with |- ready (emit ?x s3) L _ => change x with ([] ++ x) at 2; apply (emit_still s3 L []) end; auto.
Qed.

Lemma user_ok : forall l o s L cur, still cur -> lines_only o -> ready s L cur -> o <> [] -> 4 <= verbose l ->
  let s2 := user_output l o s in index s2 = index s /\
  inv s2 (if back s then L ++ cur :: lines o else L ++ (match lines o with x :: y => (cur ++ x) :: y | [] => [] end)).
Proof.
  intros l o s L cur C O (E & r & Z & T) N V. unfold user_output. destruct o as [|c o]; [congruence|]. destruct (N.ltb_spec (verbose l) 4); [lia|]. cbn zeta. split; [reflexivity|].
  remember (c :: o) as x eqn:X. assert (NE : last s =? cap s + N.of_nat (length x) = false) by (apply N.eqb_neq; subst x; cbn [length]; lia).
  destruct (back s).
  - destruct (typed_lines x (L ++ [cur]) [] [] O still_nil ltac:(constructor)) as (D2 & b & r2 & P & Z2 & Q & R). exists ((L ++ [cur]) ++ D2), b, r2. cbn [dev last cap]. rewrite !typed_app, T, typed_newline, P, NE by assumption.
    split; [reflexivity|]. split; [exact Z2|]. split; [|exact R]. rewrite <- !app_assoc. cbn [app]. rewrite Q. destruct (lines_cons x) as (u & v & ->). reflexivity.
  - destruct (typed_lines x L cur r O C Z) as (D2 & b & r2 & P & Z2 & Q & R). exists (L ++ D2), b, r2. cbn [dev last cap app]. rewrite typed_app, T, P, NE.
    split; [reflexivity|]. split; [exact Z2|]. split; [|exact R]. rewrite <- app_assoc, Q. reflexivity.
Qed.
