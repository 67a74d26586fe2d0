(** Proofs about the reports of mocks. *)
From Coq Require Import List NArith ZArith Bool Arith Lia.
From Verif Require Import Base LineModel LineSpec JunitModel JunitSpec JunitProofs StrdiffSpec MessageModel MessageSpec MessageProofs MessageProofs2 MockModel ValueModel ValueSpec ValueProofs ValueProofs2 MockmsgModel MockmsgSpec.
Import ListNotations.
Local Open Scope N_scope.

(** ** what is visible *)
Lemma vis_app a b : visible (a ++ b) = visible a ++ visible b.
Proof. unfold visible. rewrite !ink_text. induction a as [|w a IH]; [reflexivity|]. cbn [app spoken]. destruct (is_style w); [exact IH|]. rewrite <- app_assoc, <- IH. reflexivity. Qed.
Lemma vis_word w : is_style w = false -> visible [w] = w.
Proof. intro H. unfold visible. rewrite ink_text. cbn [spoken]. rewrite H. apply app_nil_r. Qed.
Lemma vis_style w l : is_style w = true -> visible (w :: l) = visible l.
Proof. intro H. unfold visible. rewrite !ink_text. cbn [spoken]. rewrite H. reflexivity. Qed.
Lemma vis_color w s : ~ In 27 w -> visible (color [w] s) = w.
Proof. intro H. unfold color. rewrite vis_style by reflexivity. rewrite vis_app, (vis_word w) by (apply calm; exact H). rewrite vis_style by reflexivity. apply app_nil_r. Qed.
Lemma vis_delta w s : ~ In 27 w -> visible (delta_line [w] s) = w.
Proof. intro H. unfold delta_line. rewrite vis_style by reflexivity. rewrite vis_app, (vis_word w) by (apply calm; exact H). rewrite vis_style by reflexivity. apply app_nil_r. Qed.
Lemma vis_gray w : ~ In 27 w -> visible (gray w) = w.
Proof. intro H. unfold gray. destruct w; [reflexivity|]. unfold delta. rewrite vis_style by reflexivity. change ([?a; ?b]) with ([a] ++ [b]). rewrite vis_app, vis_word by (apply calm; exact H). rewrite vis_style by reflexivity. apply app_nil_r. Qed.

(** ** words *)
Definition nospace (w : bytes) : Prop := ~ In 32 w.
Fixpoint unwords (ws : list bytes) : bytes := match ws with [] => [] | [w] => w | w :: r => w ++ 32 :: unwords r end.
Lemma words_some s : words s <> [].
Proof. induction s as [|c s IH]; [discriminate|]. cbn. destruct (words s); [congruence|]. destruct (c =? 32); discriminate. Qed.
Lemma words_app w s : nospace w -> words (w ++ 32 :: s) = w :: words s.
Proof.
  induction w as [|c w IH]; intro H; cbn [app words].
  - destruct (words s) eqn:E; [exfalso; exact (words_some s E)|]. reflexivity.
  - rewrite IH by (intro I; apply H; right; exact I). destruct (N.eqb_spec c 32) as [->|D]; [exfalso; apply H; left; reflexivity|reflexivity].
Qed.
Lemma words_one w : nospace w -> words w = [w].
Proof. induction w as [|c w IH]; intro H; [reflexivity|]. cbn [words]. rewrite IH by (intro I; apply H; right; exact I). destruct (N.eqb_spec c 32) as [->|D]; [exfalso; apply H; left; reflexivity|reflexivity]. Qed.
Lemma words_unwords ws : ws <> [] -> Forall nospace ws -> words (unwords ws) = ws.
Proof.
  intros NE F. induction F as [|w ws H F IH]; [congruence|]. destruct ws as [|v ws]; [apply words_one; exact H|]. cbn [unwords]. rewrite words_app by exact H. f_equal. apply IH. discriminate.
Qed.
Lemma unwords_app a b : a <> [] -> b <> [] -> unwords (a ++ b) = unwords a ++ 32 :: unwords b.
Proof.
  intros NA NB. induction a as [|w a IH]; [congruence|]. destruct a as [|v a]; [cbn [app unwords]; destruct b; [congruence|reflexivity]|].
  cbn [app] in *. change (unwords (w :: v :: a ++ b)) with (w ++ 32 :: unwords (v :: a ++ b)). rewrite IH by discriminate. change (unwords (w :: v :: a)) with (w ++ 32 :: unwords (v :: a)). rewrite <- app_assoc. reflexivity.
Qed.
Lemma behind_app p s : MockmsgSpec.behind p (p ++ s) = Some s.
Proof. induction p as [|c p IH]; [reflexivity|]. cbn [app MockmsgSpec.behind]. rewrite N.eqb_refl. exact IH. Qed.

(** ** numbers *)
Lemma numeral_dec n : numeral (dec n) = Some (Z.of_N n).
Proof.
  destruct (dec_ok n) as (F & V & NE & _). unfold numeral. destruct (dec n) as [|c d] eqn:E; [congruence|]. replace (forallb _ (c :: d)) with true; [rewrite V; reflexivity|].
  symmetry. apply forallb_forall. intros x I. rewrite Forall_forall in F. specialize (F x I). rewrite andb_true_iff, !N.leb_le. exact F.
Qed.
Lemma numeral_of z : (0 <= z)%Z -> numeral (number_of z) = Some z.
Proof. intro H. destruct z as [|p|p]; [reflexivity| |lia]. cbn [number_of]. rewrite numeral_dec. reflexivity. Qed.
Lemma dec_not n c : ~ (48 <= c <= 57) -> ~ In c (dec n).
Proof. intros H I. destruct (dec_ok n) as (F & _). rewrite Forall_forall in F. exact (H (F c I)). Qed.
Lemma number_not z c : (0 <= z)%Z -> ~ (48 <= c <= 57) -> ~ In c (number_of z).
Proof. intros P H. destruct z as [|p|p]; [intros [I|[]]; lia|apply dec_not; exact H|lia]. Qed.
Lemma nospace_number z : (0 <= z)%Z -> nospace (number_of z).
Proof. intro P. apply number_not; [exact P|lia]. Qed.
Lemma not_in (c : N) (w : bytes) : forallb (fun x => negb (x =? c)) w = true -> ~ In c w.
Proof. intros H I. rewrite forallb_forall in H. specialize (H c I). rewrite N.eqb_refl in H. discriminate. Qed.

(** ** the range *)
Lemma range_words n lo hi : (0 <= lo <= hi)%Z -> (hi <= unlimited)%Z ->
  exists ws, expected (mkcheckin n lo hi) = unwords ws /\ ws <> [] /\ Forall nospace ws /\ Forall (fun w => ~ In 27 w) ws /\ forall r, read_range (ws ++ r) = Some (lo, hi, r).
Proof.
  intros H1 H2. unfold expected. cbn [least most]. unfold unlimited in *.
  assert (NS : forall w, forallb (fun x => negb (x =? 32)) w = true -> nospace w) by (intros w E; apply not_in; exact E).
  assert (NE : forall w, forallb (fun x => negb (x =? 27)) w = true -> ~ In 27 w) by (intros w E; apply not_in; exact E).
  assert (N1 := nospace_number lo ltac:(lia)). assert (N2 := nospace_number hi ltac:(lia)).
  assert (E1 : ~ In 27 (number_of lo)) by (apply number_not; lia). assert (E2 : ~ In 27 (number_of hi)) by (apply number_not; lia).
  assert (V1 := numeral_of lo ltac:(lia)). assert (V2 := numeral_of hi ltac:(lia)).
  destruct (Z.eqb_spec lo 0) as [->|L]; [destruct (Z.eqb_spec hi 0) as [->|H]; [|destruct (Z.eqb_spec hi 2147483647) as [->|M]]|destruct (Z.eqb_spec lo hi) as [->|D]; [|destruct (Z.eqb_spec hi 2147483647) as [->|M]]].
  - exists [str "never"; str "called"]. repeat split; try discriminate; repeat constructor; try (apply NS; reflexivity); try (apply NE; reflexivity).
  - exists [str "any"; str "number"; str "of"; str "times"]. repeat split; try discriminate; repeat constructor; try (apply NS; reflexivity); try (apply NE; reflexivity).
  - exists [str "at"; str "most"; number_of hi; str "times"]. split; [reflexivity|]. split; [discriminate|]. split; [repeat constructor; try (apply NS; reflexivity); exact N2|].
    split; [repeat constructor; try (apply NE; reflexivity); exact E2|]. intro r. unfold read_range. cbn - [numeral number_of]. rewrite V2. reflexivity.
  - exists [str "exactly"; number_of hi; str "times"]. split; [reflexivity|]. split; [discriminate|]. split; [repeat constructor; try (apply NS; reflexivity); exact N2|].
    split; [repeat constructor; try (apply NE; reflexivity); exact E2|]. intro r. unfold read_range. cbn - [numeral number_of]. rewrite V2. reflexivity.
  - exists [str "at"; str "least"; number_of lo; str "times"]. split; [reflexivity|]. split; [discriminate|]. split; [repeat constructor; try (apply NS; reflexivity); exact N1|].
    split; [repeat constructor; try (apply NE; reflexivity); exact E1|]. intro r. unfold read_range. cbn - [numeral number_of]. rewrite V1. reflexivity.
  - exists [str "between"; number_of lo; str "and"; number_of hi; str "times"]. split; [cbn [unwords]; rewrite <- ?app_assoc; reflexivity|]. split; [discriminate|].
    split; [repeat constructor; try (apply NS; reflexivity); assumption|].
    split; [repeat constructor; try (apply NE; reflexivity); assumption|]. intro r. unfold read_range. cbn - [numeral number_of]. rewrite V1, V2. reflexivity.
Qed.
Lemma count_words n lo hi : (0 <= n)%Z -> exists ws, actual (mkcheckin n lo hi) = unwords ws /\ ws <> [] /\ Forall nospace ws /\ Forall (fun w => ~ In 27 w) ws /\ forall r, read_count (ws ++ r) = Some (n, r).
Proof.
  intro H. unfold actual. cbn [call]. destruct (Z.ltb_spec 0 n) as [L|L].
  - exists [number_of n; str "times"]. split; [reflexivity|]. split; [discriminate|]. split; [constructor; [apply nospace_number; lia|constructor; [apply not_in; reflexivity|constructor]]|].
    split; [constructor; [apply number_not; lia|constructor; [apply not_in; reflexivity|constructor]]|]. intro r. unfold read_count. cbn [app].
    assert (X : bytes_eqb (number_of n) (str "never") = false).
    { destruct (bytes_eqb (number_of n) (str "never")) eqn:E; [|reflexivity]. apply bytes_eqb_eq in E. exfalso. apply (number_not n 110 ltac:(lia) ltac:(lia)). rewrite E. left. reflexivity. }
    rewrite X, numeral_of by lia. reflexivity.
  - exists [str "never"]. split; [reflexivity|]. split; [discriminate|]. split; [constructor; [apply not_in; reflexivity|constructor]|]. split; [constructor; [apply not_in; reflexivity|constructor]|]. intro r. cbn. f_equal. f_equal. lia.
Qed.

(** ** ordinals *)
Definition ordinal_fine (i : N) : bool :=
  match read_ordinal (index_th i) with Some z => (z =? Z.of_N i + 1)%Z | None => false end && forallb (fun x => negb (x =? 32) && negb (x =? 27)) (index_th i).
Lemma index_digits i : exists d s, index_th i = d ++ s /\ decimal d (i + 1) /\ length s = 2%nat /\ In s [str "st"; str "nd"; str "rd"; str "th"].
Proof.
  unfold index_th. destruct (N.ltb_spec (i + 1) 16) as [L|L].
  - assert (C : Forall (fun j => exists d s, nth (N.to_nat (j + 1)) ordinals [] = d ++ s /\ decimal d (j + 1) /\ length s = 2%nat /\ In s [str "st"; str "nd"; str "rd"; str "th"]) [0; 1; 2; 3; 4; 5; 6; 7; 8; 9; 10; 11; 12; 13; 14]).
    { repeat (constructor; [|]); [..|constructor];
        match goal with |- exists d s, nth (N.to_nat (?j + 1)) ordinals [] = _ /\ _ => exists (dec (j + 1)), (skipn (length (dec (j + 1))) (nth (N.to_nat (j + 1)) ordinals [])) end;
        (split; [reflexivity|]; split; [apply dec_ok|]; split; [reflexivity|]; vm_compute; auto 7). }
    rewrite Forall_forall in C. apply C. cbn [In]. lia.
  - exists (dec (i + 1)), (str "th"). split; [reflexivity|]. split; [apply dec_ok|]. split; [reflexivity|]. cbn [In]. auto.
Qed.
Lemma decimal_numeral d n : decimal d n -> numeral d = Some (Z.of_N n) /\ forall c, ~ (48 <= c <= 57) -> ~ In c d.
Proof.
  intros (F & V & NE & _). split.
  - unfold numeral. destruct d as [|c d]; [congruence|]. replace (forallb _ (c :: d)) with true; [rewrite V; reflexivity|]. symmetry. apply forallb_forall. intros x I. rewrite Forall_forall in F. specialize (F x I). rewrite andb_true_iff, !N.leb_le. exact F.
  - intros c H I. rewrite Forall_forall in F. exact (H (F c I)).
Qed.
Lemma ordinal_ok i : read_ordinal (index_th i) = Some (Z.of_N i + 1)%Z /\ nospace (index_th i) /\ ~ In 27 (index_th i).
Proof.
  destruct (index_digits i) as (d & s & -> & D & _ & S). destruct (decimal_numeral d _ D) as [V X].
  assert (N : forall c, ~ (48 <= c <= 57) -> c < 97 -> ~ In c (d ++ s)).
  { intros c H1 H2 I. apply in_app_iff in I. destruct I as [I|I]; [exact (X c H1 I)|]. cbn in S. destruct S as [<-|[<-|[<-|[<-|[]]]]]; cbn in I; lia. }
  split; [|split; [apply N; lia|apply N; lia]]. unfold read_ordinal. rewrite rev_app_distr. cbn in S.
  destruct S as [<-|[<-|[<-|[<-|[]]]]]; cbn - [numeral]; rewrite rev_involutive, V; f_equal; lia.
Qed.
