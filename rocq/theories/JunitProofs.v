(** Proofs about the JUnit report: the file reads back. *)
From Coq Require Import List NArith ZArith Bool Arith Lia.
From Verif Require Import Base RunnerModel RunnerSpec JunitModel XmlSpec JunitSpec.
Import ListNotations.
Local Open Scope N_scope.

Lemma read_app : forall a b x, read_all x (a ++ b) = match read_all x a with Some y => read_all y b | None => None end.
Proof. induction a as [|c a IH]; intros b x; auto. cbn [app read_all]. destruct (read1 x c); auto. Qed.
Lemma read_value : forall v n a k acc o r, clean v -> read_all (mkreader (Value n a k acc) o r) v = Some (mkreader (Value n a k (acc ++ v)) o r).
Proof.
  induction v as [|c v IH]; intros n a k acc o r C; [rewrite app_nil_r; reflexivity|].
  cbn [read_all]. unfold read1. cbn [at_]. destruct (C c (or_introl eq_refl)) as (Q & L & A & G).
  rewrite (proj2 (N.eqb_neq c 34) Q), (proj2 (N.eqb_neq c 60) L), (proj2 (N.eqb_neq c 38) A), (proj2 (N.ltb_ge c 32) G). cbn [orb go opened roots].
  unfold go. cbn [opened roots]. rewrite IH by (intros y H; apply C; right; auto). rewrite <- app_assoc. reflexivity.
Qed.
Definition fine (s : bytes) : bool := forallb (fun c => negb (c =? 34) && negb (c =? 60) && negb (c =? 38) && (32 <=? c)) s.
Lemma fine_clean : forall s, fine s = true -> clean s.
Proof.
  intros s F c I. unfold fine in F. rewrite forallb_forall in F. specialize (F c I). rewrite !andb_true_iff, !negb_true_iff, !N.eqb_neq, N.leb_le in F. tauto.
Qed.
Lemma clean_app : forall a b, clean a -> clean b -> clean (a ++ b).
Proof. intros a b A B c I. apply in_app_or in I. destruct I; auto. Qed.

(** *** numbers *)
Definition value (s : bytes) (a : N) : N := fold_left (fun a c => 10 * a + (c - 48)) s a.
Lemma digits_ok : forall fuel n acc, n < 2 ^ N.of_nat fuel -> exists d, digits (S fuel) n acc = d ++ acc /\ Forall (fun c => 48 <= c <= 57) d /\ value d 0 = n /\ d <> [] /\ (hd 48 d = 48 -> d = [48]).
Proof.
  induction fuel as [|f IH]; intros n acc L.
  - change (2 ^ N.of_nat 0) with 1 in L. assert (n = 0) by lia. subst n. exists [48]. cbn. split; auto. split; [repeat constructor; lia|]. split; auto. split; [discriminate|auto].
  - remember (S f) as sf. cbn [digits]. destruct (n <? 10) eqn:E.
    + apply N.ltb_lt in E. exists [48 + n]. cbn [app value fold_left hd]. split; auto. split; [repeat constructor; lia|]. split; [lia|]. split; [discriminate|]. intros H. f_equal. auto.
    + apply N.ltb_ge in E. subst sf. assert (L2 : n / 10 < 2 ^ N.of_nat f).
      { apply N.div_lt_upper_bound; [lia|]. rewrite Nnat.Nat2N.inj_succ, N.pow_succ_r' in L. lia. }
      destruct (IH (n / 10) ((48 + n mod 10) :: acc) L2) as (d & D & F & V & NE & Z). exists (d ++ [48 + n mod 10]).
      pose proof (N.mod_lt n 10 ltac:(lia)) as M. split; [rewrite D, <- app_assoc; reflexivity|]. split; [apply Forall_app; split; [auto|constructor; [clear - M; cbv beta; generalize dependent (n mod 10); intros z Hz; split; lia|constructor]]|].
      split; [unfold value in *; rewrite fold_left_app, V; cbn [fold_left]; pose proof (N.div_mod' n 10) as DM; clear - DM; revert DM; generalize (n mod 10) (n / 10); intros; lia|]. split; [destruct d; discriminate|].
      intros H. exfalso. destruct d as [|x d]; [auto|]. cbn [app hd] in *. specialize (Z H). injection Z as Zx Zd. subst x d. cbn in V.
      pose proof (N.div_str_pos n 10 ltac:(split; [reflexivity|exact E])) as P. rewrite <- V in P. discriminate P.
Qed.
Lemma dec_ok : forall n, decimal (dec n) n.
Proof.
  intros n. unfold dec. destruct (digits_ok (N.size_nat n) n []) as (d & D & F & V & NE & Z).
  { destruct n as [|p]; [cbn; lia|]. rewrite <- (Nnat.N2Nat.id (N.of_nat (N.size_nat (N.pos p)))), Nnat.Nat2N.id. pose proof (N.size_gt (N.pos p)). cbn [N.size] in *.
    replace (N.of_nat (N.size_nat (N.pos p))) with (N.pos (Pos.size p)); auto. cbn [N.size_nat]. clear. induction p as [p IH|p IH|]; cbn [Pos.size_nat Pos.size]; auto; rewrite Nnat.Nat2N.inj_succ, <- IH; lia. }
  rewrite D, app_nil_r. unfold decimal. auto.
Qed.
Lemma digits_clean : forall s, Forall (fun c => 48 <= c <= 57) s -> clean s.
Proof. intros s F c I. rewrite Forall_forall in F. specialize (F c I). lia. Qed.
Lemma dec_clean : forall n, clean (dec n).
Proof. intros n. apply digits_clean. apply dec_ok. Qed.
Lemma seconds_ok : forall ms, in_seconds (seconds ms) ms.
Proof.
  intros ms. exists (dec (ms / 1000)), [48 + ms mod 1000 / 100; 48 + ms mod 100 / 10; 48 + ms mod 10]. split; [reflexivity|]. split; [apply dec_ok|]. split; [reflexivity|].
  assert (B1 : ms mod 1000 / 100 < 10) by (apply N.div_lt_upper_bound; [lia|]; pose proof (N.mod_lt ms 1000); lia).
  assert (B2 : ms mod 100 / 10 < 10) by (apply N.div_lt_upper_bound; [lia|]; pose proof (N.mod_lt ms 100); lia).
  assert (B3 : ms mod 10 < 10) by (apply N.mod_lt; lia).
  split; [revert B1 B2 B3; generalize (ms mod 1000 / 100); generalize (ms mod 100 / 10); generalize (ms mod 10); intros; repeat (constructor; [split; lia|]); constructor|]. cbn [fold_left].
  assert (E1 : (ms mod 1000) mod 100 = ms mod 100). { change 1000 with (100 * 10). rewrite N.mod_mul_r by lia. rewrite N.mul_comm, N.mod_add by lia. rewrite N.mod_mod by lia. reflexivity. }
  assert (E2 : (ms mod 100) mod 10 = ms mod 10). { change 100 with (10 * 10). rewrite N.mod_mul_r by lia. rewrite N.mul_comm, N.mod_add by lia. rewrite N.mod_mod by lia. reflexivity. }
  pose proof (N.div_mod' (ms mod 1000) 100) as D1. pose proof (N.div_mod' (ms mod 100) 10) as D2. rewrite E1 in D1. rewrite E2 in D2. clear - D1 D2. revert D1 D2. generalize (ms mod 1000 / 100). generalize (ms mod 100 / 10). generalize (ms mod 10) (ms mod 100) (ms mod 1000). intros. lia.
Qed.
Lemma seconds_clean : forall ms, clean (seconds ms).
Proof.
  intros ms. unfold seconds. apply clean_app; [apply dec_clean|].
  assert (B1 : ms mod 1000 / 100 < 10) by (apply N.div_lt_upper_bound; [lia|]; pose proof (N.mod_lt ms 1000); lia).
  assert (B2 : ms mod 100 / 10 < 10) by (apply N.div_lt_upper_bound; [lia|]; pose proof (N.mod_lt ms 100); lia).
  assert (B3 : ms mod 10 < 10) by (apply N.mod_lt; lia).
  revert B1 B2 B3; generalize (ms mod 1000 / 100); generalize (ms mod 100 / 10); generalize (ms mod 10); intros z y x B1 B2 B3 c I. cbn [In] in I. destruct I as [<-|[<-|[<-|[<-|[]]]]]; lia.
Qed.
Lemma newlines_clean : forall n, clean (concat (repeat (str "{newline}") n)).
Proof. induction n as [|n IH]; [intros c []|]. cbn [repeat concat]. apply clean_app; auto. apply fine_clean. reflexivity. Qed.

(** *** elements *)
Definition case_element (s n st t : bytes) (f : option bytes) : element :=
  Element (str "testcase") [(str "classname", s); (str "name", n); (str "status", st); (str "time", t)]
    ((match f with Some m => [Element (str "failure") [(str "message", m); (str "type", str "AssertionFailedError")] []] | None => [] end) ++ [Element (str "system-out") [] []; Element (str "system-err") [] []]).
Ltac literal := match goal with |- context [read_all ?x ?s] =>
  lazymatch s with str _ => idtac | q => idtac | [10] => idtac end;
  let y := eval vm_compute in (read_all x s) in change (read_all x s) with y; cbv beta iota end.
Ltac reading := repeat (rewrite ?app_nil_r; rewrite ?read_app; first [literal | rewrite read_value by assumption; cbv beta iota; rewrite ?app_nil_l]).
Lemma read_case : forall s n st t f m a w o r, clean s -> clean n -> clean st -> clean t -> match f with Some x => clean x | None => True end ->
  read_all (mkreader Between ((m, a, w) :: o) r)
    (str "<testcase classname=" ++ q ++ s ++ q ++ str " name=" ++ q ++ n ++ q ++ str " status=" ++ q ++ st ++ q ++ str " time=" ++ q ++ t ++ q ++ str ">" ++ [10] ++
     (match f with Some x => str "<failure message=" ++ q ++ x ++ q ++ str " type=" ++ q ++ str "AssertionFailedError" ++ q ++ str "></failure>" ++ [10] | None => [] end) ++
     str "<system-out></system-out><system-err></system-err>" ++ [10] ++ str "</testcase>" ++ [10]) =
  Some (mkreader Between ((m, a, w ++ [case_element s n st t f]) :: o) r).
Proof.
  intros s n st t f m a w o r Cs Cn Cst Ct Cf. destruct f as [x|].
  - reading. reflexivity.
  - rewrite app_nil_l. reading. reflexivity.
Qed.
Definition card_element (s : bytes) (c : card) : element :=
  case_element s (k_name c) (status c) (seconds (k_ms c)) (if k_failed c then Some (k_filine c ++ str ":" ++ concat (repeat (str "{newline}") (k_fails c))) else None).
Lemma status_clean : forall c, clean (status c).
Proof. intros c. apply fine_clean. unfold status. destruct (k_todo c), (k_filtered c), (k_ignored c), (k_failed c), (k_warning c); reflexivity. Qed.
Lemma read_card : forall s c m a w o r, clean s -> clean (k_name c) -> clean (k_filine c) ->
  read_all (mkreader Between ((m, a, w) :: o) r) (junit_case s c) = Some (mkreader Between ((m, a, w ++ [card_element s c]) :: o) r).
Proof.
  intros s c m a w o r Cs Cn Cf. unfold card_element.
  rewrite <- (read_case s (k_name c) (status c) (seconds (k_ms c)) (if k_failed c then Some (k_filine c ++ str ":" ++ concat (repeat (str "{newline}") (k_fails c))) else None) m a w o r); auto.
  - unfold junit_case. destruct (k_failed c); [|reflexivity]. rewrite <- !app_assoc. reflexivity.
  - apply status_clean.
  - apply seconds_clean.
  - destruct (k_failed c); auto. apply clean_app; auto. apply clean_app; [apply fine_clean; reflexivity|apply newlines_clean].
Qed.
Lemma read_cards : forall s cs m a w o r, clean s -> Forall (fun c => clean (k_name c) /\ clean (k_filine c)) cs ->
  read_all (mkreader Between ((m, a, w) :: o) r) (concat (map (junit_case s) cs)) = Some (mkreader Between ((m, a, w ++ map (card_element s) cs) :: o) r).
Proof.
  intros s cs. induction cs as [|c cs IH]; intros m a w o r Cs F; [cbn; rewrite app_nil_r; reflexivity|].
  apply Forall_cons_iff in F. destruct F as ((Cn & Cf) & F). cbn [map concat]. rewrite read_app, read_card by auto. rewrite IH by auto. rewrite <- app_assoc. reflexivity.
Qed.
Definition suite_element (n fl sk ts tm : bytes) (w : list element) : element :=
  Element (str "testsuite") [(str "errors", str "0"); (str "failures", fl); (str "hostname", str "localhost"); (str "name", n); (str "skipped", sk); (str "tests", ts); (str "time", tm); (str "timestamp", [])] w.
Lemma read_start : forall n fl sk ts tm m a w o r, clean n -> clean fl -> clean sk -> clean ts -> clean tm ->
  read_all (mkreader Between ((m, a, w) :: o) r)
    (str "<testsuite errors=" ++ q ++ str "0" ++ q ++ str " failures=" ++ q ++ fl ++ q ++ str " hostname=" ++ q ++ str "localhost" ++ q ++ str " name=" ++ q ++ n ++ q ++
     str " skipped=" ++ q ++ sk ++ q ++ str " tests=" ++ q ++ ts ++ q ++ str " time=" ++ q ++ tm ++ q ++ str " timestamp=" ++ q ++ q ++ str ">" ++ [10]) =
  Some (mkreader Between ((str "testsuite", attributes (suite_element n fl sk ts tm []), []) :: (m, a, w) :: o) r).
Proof. intros. reading. reflexivity. Qed.
Definition sheet_element (s : sheet) : element :=
  suite_element (s_name s) (dec (s_failed s)) (dec (s_todo s + s_filtered s)) (dec (N.of_nat (length (s_cards s)))) (dec 0) (map (card_element (s_name s)) (s_cards s)).
Lemma read_sheet : forall s m a w o r, clean_sheet s ->
  read_all (mkreader Between ((m, a, w) :: o) r) (junit_suite s) = Some (mkreader Between ((m, a, w ++ [sheet_element s]) :: o) r).
Proof.
  intros s m a w o r (Cn & F). unfold junit_suite.
  transitivity (read_all (mkreader Between ((m, a, w) :: o) r)
    ((str "<testsuite errors=" ++ q ++ str "0" ++ q ++ str " failures=" ++ q ++ dec (s_failed s) ++ q ++ str " hostname=" ++ q ++ str "localhost" ++ q ++ str " name=" ++ q ++ s_name s ++ q ++
      str " skipped=" ++ q ++ dec (s_todo s + s_filtered s) ++ q ++ str " tests=" ++ q ++ dec (N.of_nat (length (s_cards s))) ++ q ++ str " time=" ++ q ++ dec 0 ++ q ++ str " timestamp=" ++ q ++ q ++ str ">" ++ [10]) ++
     concat (map (junit_case (s_name s)) (s_cards s)) ++ str "</testsuite>" ++ [10])).
  { rewrite <- !app_assoc. reflexivity. }
  rewrite read_app, read_start by (auto using dec_clean). rewrite read_app, read_cards by auto. cbn [app]. unfold sheet_element.
  generalize (map (card_element (s_name s)) (s_cards s)) (dec (s_failed s)) (dec (s_todo s + s_filtered s)) (dec (N.of_nat (length (s_cards s)))) (dec 0). intros w2 l1 l2 l3 l4.
  reading. reflexivity.
Qed.
Lemma read_sheets : forall ss m a w o r, Forall clean_sheet ss ->
  read_all (mkreader Between ((m, a, w) :: o) r) (concat (map junit_suite ss)) = Some (mkreader Between ((m, a, w ++ map sheet_element ss) :: o) r).
Proof.
  induction ss as [|s ss IH]; intros m a w o r F; [cbn; rewrite app_nil_r; reflexivity|].
  apply Forall_cons_iff in F. destruct F as (C & F). cbn [map concat]. rewrite read_app, read_sheet by auto. rewrite IH by auto. rewrite <- app_assoc. reflexivity.
Qed.
Lemma read_junit : forall ss, Forall clean_sheet ss -> read_xml (junit ss) = Some (Element (str "testsuites") [] (map sheet_element ss)).
Proof.
  intros ss F. set (h := str "xml version=" ++ q ++ str "1.0" ++ q ++ str " encoding=" ++ q ++ str "UTF-8" ++ q ++ str " ").
  set (b := [10] ++ str "<testsuites>" ++ [10] ++ concat (map junit_suite ss) ++ str "</testsuites>" ++ [10]).
  assert (J : junit ss = 60 :: 63 :: h ++ str "?>" ++ b) by reflexivity. rewrite J. unfold read_xml. cbn [N.eqb Pos.eqb andb].
  assert (Q : question_end (h ++ str "?>" ++ b) = Some (h, b)) by reflexivity.
  rewrite Q. assert (D : declares h = true) by (vm_compute; reflexivity). rewrite D. clear Q D J h. unfold single, b. clear b. reading. rewrite read_app, read_sheets by auto. cbv beta iota. cbn [app]. generalize (map sheet_element ss). intros w. reading. reflexivity.
Qed.

Lemma card_shown : forall s c, case_shown s c (card_element s c) /\ status_shown c (card_element s c).
Proof.
  intros s c. split.
  - unfold case_shown, card_element, case_element. split; [reflexivity|]. split; [reflexivity|]. split; [reflexivity|].
    split; [exists (seconds (k_ms c)); split; [reflexivity|apply seconds_ok]|]. split.
    + intros ->. reflexivity.
    + intros ->. eexists. exists (concat (repeat (str "{newline}") (k_fails c))). split; [reflexivity|]. split; [reflexivity|reflexivity].
  - apply (SS _ _ (status c)); [reflexivity| | | | | |]; unfold status; intros;
      repeat match goal with H : _ = true |- _ => rewrite H; clear H | H : _ = false |- _ => rewrite H; clear H end; reflexivity.
Qed.
Lemma forall2_map_r : forall A B (R : A -> B -> Prop) (f : A -> B) l, (forall x, R x (f x)) -> Forall2 R l (map f l).
Proof. intros A B R f l H. induction l; cbn; constructor; auto. Qed.
Lemma sheet_shown : forall s, suite_shown s (sheet_element s).
Proof.
  intros s. unfold suite_shown, sheet_element, suite_element. split; [reflexivity|]. split; [reflexivity|].
  split; [eexists; split; [reflexivity|apply dec_ok]|]. cbn [within]. apply forall2_map_r. intros c. apply card_shown.
Qed.
Lemma junit_reads : forall ss, Forall clean_sheet ss -> exists d, read_xml (junit ss) = Some d /\ tag d = str "testsuites" /\ Forall2 suite_shown ss (within d).
Proof.
  intros ss F. exists (Element (str "testsuites") [] (map sheet_element ss)). split; [apply read_junit; auto|]. split; [reflexivity|]. apply forall2_map_r. intros s. apply sheet_shown.
Qed.
