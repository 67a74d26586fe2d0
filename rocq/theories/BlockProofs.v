(** Proofs: attributes of a BLOCK. *)
From Coq Require Import List NArith ZArith Bool Arith Lia.
From Verif Require Import Base FilterModel FilterProofs MemModel SockModel SockProofs MemcmpModel MemcmpSpec MemcmpProofs BlockModel BlockSpec.
Import ListNotations.
Local Open Scope N_scope.

Lemma white_isspace : forall c, white c <-> isspace c = true.
Proof. intros c. unfold white, isspace. rewrite orb_true_iff, andb_true_iff, N.eqb_eq, !N.leb_le. cbn. lia. Qed.
Lemma not_white : forall c, ~ white c <-> isspace c = false.
Proof. intros c. rewrite white_isspace. destruct (isspace c); split; congruence. Qed.
Lemma blank_space : forall w, blank w -> Forall (fun c => isspace c = true) w.
Proof. intros w H. eapply Forall_impl; [|exact H]. intros c C. apply white_isspace, C. Qed.
Lemma worded_length : forall k b, worded k b -> length b = length k.
Proof. intros k b H. apply (f_equal (@length N)) in H. unfold fold_str in H. rewrite !map_length in H. exact H. Qed.
Lemma case_prefix_word : forall k s, case_prefix k s = true <-> exists b c, worded k b /\ s = b ++ c.
Proof.
  intros k s. rewrite case_prefix_spec. split.
  - intros (x & H). exists (firstn (length k) s), (skipn (length k) s). split; [|symmetry; apply firstn_skipn]. unfold worded. unfold fold_str in *. rewrite <- firstn_map, H, firstn_app, map_length, Nat.sub_diag, firstn_O, app_nil_r.
    rewrite <- (map_length (fold_char true) k) at 1. apply firstn_all.
  - intros (b & c & W & ->). exists (fold_str true c). unfold fold_str. rewrite map_app. f_equal. exact W.
Qed.
Lemma from_key_first : forall s k t, from_key s k = Some t -> exists a b c, worded k b /\ t = b ++ c /\ s = a ++ t /\ forall a' b' c', worded k b' -> s = a' ++ b' ++ c' -> (length a <= length a')%nat.
Proof.
  induction s as [|x s IH]; intros k t H; cbn [from_key] in H.
  - destruct (case_prefix k []) eqn:E; [|discriminate]. inversion H; subst t. apply case_prefix_word in E. destruct E as (b & c & W & E). exists [], b, c. split; [exact W|]. split; [exact E|]. split; [reflexivity|]. intros; cbn; lia.
  - destruct (case_prefix k (x :: s)) eqn:E.
    + inversion H; subst t. apply case_prefix_word in E. destruct E as (b & c & W & E). exists [], b, c. split; [exact W|]. split; [exact E|]. split; [reflexivity|]. intros; cbn; lia.
    + destruct (IH k t H) as (a & b & c & W & T & Q & F). exists (x :: a), b, c. split; [exact W|]. split; [exact T|]. split; [cbn; f_equal; exact Q|].
      intros [|y a'] b' c' W' Q'.
      * cbn in Q'. assert (case_prefix k (x :: s) = true); [|congruence]. apply case_prefix_word. exists b', c'. auto.
      * inversion Q'. cbn [length]. specialize (F a' b' c' W' H2). lia.
Qed.
Lemma from_key_none : forall s k, from_key s k = None <-> ~ mentioned k s.
Proof.
  intros s k. split.
  - revert k. induction s as [|x s IH]; intros k H (a & b & c & W & E); cbn [from_key] in H.
    + destruct (case_prefix k []) eqn:P; [discriminate|]. destruct a; [|discriminate]. assert (case_prefix k [] = true); [|congruence]. apply case_prefix_word. exists b, c. auto.
    + destruct (case_prefix k (x :: s)) eqn:P; [discriminate|]. destruct a as [|y a].
      * assert (case_prefix k (x :: s) = true); [|congruence]. apply case_prefix_word. exists b, c. auto.
      * inversion E; subst y. apply (IH k H). exists a, b, c. auto.
  - intros H. destruct (from_key s k) as [t|] eqn:E; [|reflexivity]. exfalso. apply from_key_first in E. destruct E as (a & b & c & W & T & Q & _). apply H. exists a, b, c. subst t. auto.
Qed.
Lemma first_key : forall k s a c, first_at k s a c -> exists b, worded k b /\ from_key s k = Some (b ++ c).
Proof.
  intros k s a c ((b & W & E) & F). destruct (from_key s k) as [t|] eqn:K.
  - destruct (from_key_first s k t K) as (a2 & b2 & c2 & W2 & T & E2 & F2). assert (L : length a = length a2). { apply Nat.le_antisymm; [apply (F a2 b2 c2 W2); rewrite E2, T; reflexivity|apply (F2 a b c W E)]. }
    assert (TT : t = b ++ c); [|exists b; split; [exact W|f_equal; exact TT]]. rewrite E2 in E. apply (f_equal (skipn (length a))) in E. rewrite L in E at 1. rewrite !skipn_app, !skipn_all, !Nat.sub_diag in E. exact E.
  - exfalso. apply from_key_none in K. apply K. exists a, b, c. auto.
Qed.
Lemma strip_blank : forall w s, blank w -> match s with [] => True | c :: _ => ~ white c end -> strip_left (w ++ s) = s.
Proof. intros w s W H. apply strip_left_ws; [apply blank_space, W|]. destruct s; [exact I|apply not_white, H]. Qed.
Lemma get_assigned : forall k s v, assigned k s v -> get_keyvalue s k = Some v.
Proof.
  intros k s v (a & w1 & w2 & F & B1 & B2 & H). destruct (first_key _ _ _ _ F) as (b & W & E). unfold get_keyvalue. rewrite E. rewrite <- (worded_length _ _ W).
  rewrite skipn_app, skipn_all, Nat.sub_diag. cbn [skipn app]. rewrite (strip_blank w1 (61 :: w2 ++ v) B1); [|cbn; lia]. rewrite (strip_blank w2 v B2 H). reflexivity.
Qed.
Lemma get_bare : forall k s, bare k s -> get_keyvalue s k = Some [].
Proof.
  intros k s (a & w & c & F & B & H). destruct (first_key _ _ _ _ F) as (b & W & E). unfold get_keyvalue. rewrite E. rewrite <- (worded_length _ _ W).
  rewrite skipn_app, skipn_all, Nat.sub_diag. cbn [skipn app]. rewrite (strip_blank w c B); [|destruct c; [exact I|apply H]]. destruct c as [|x c]; [reflexivity|]. destruct H as (_ & H). destruct x as [|p]; [reflexivity|].
  destruct (N.eqb_spec (Npos p) 61) as [Q|Q]; [congruence|]. repeat (destruct p as [p|p|]; try reflexivity; try congruence).
Qed.
Lemma get_absent : forall k s, ~ mentioned k s -> get_keyvalue s k = None.
Proof. intros k s H. apply from_key_none in H. unfold get_keyvalue. rewrite H. reflexivity. Qed.
Lemma get_mentioned : forall k s, mentioned k s <-> get_keyvalue s k <> None.
Proof.
  intros k s. split.
  - intros H E. unfold get_keyvalue in E. destruct (from_key s k) eqn:K; [|apply from_key_none in K; contradiction]. destruct (strip_left (skipn (length k) l)) as [|[|p] r]; [discriminate|discriminate|]. repeat (destruct p as [p|p|]; try discriminate).
  - intros H. destruct (from_key s k) as [t|] eqn:K; [|unfold get_keyvalue in H; rewrite K in H; congruence]. apply from_key_first in K. destruct K as (a & b & c & W & T & E & _). exists a, b, c. subst t. auto.
Qed.

(** ** the bytes to fill with *)
Lemma fill_hex_spec : forall s, let p := firstn (count_xdigits s) s in (count_xdigits s <= 64)%nat ->
  exists m, fill_hex s = Some ((length (padded p) / 2)%nat, m) /\ length m = 32%nat /\ agrees m (pairs (padded p)) (length (padded p) / 2).
Proof.
  intros s p C64. destruct (count_run s) as (q & E & D & L & B). fold p in E, D, L. unfold fill_hex, padded. rewrite L. destruct (Nat.odd (count_xdigits s)) eqn:O.
  - destruct p as [|x p']; [cbn in L; rewrite <- L in O; discriminate|]. rewrite <- L in *. cbn [length] in *.
    assert (Ev : Nat.even (length p') = true) by (rewrite Nat.odd_succ in O; auto).
    assert (Ev2 : Nat.even (length (48 :: x :: p')) = true) by (cbn [length]; exact Ev).
    assert (DD : hex_digits (48 :: x :: p')) by (constructor; auto).
    assert (HB : (0 + S (S (length p')) / 2 <= length (repeat (@None N) 32))%nat).
    { rewrite repeat_length. cbn [length Nat.add]. apply Nat.even_spec in Ev. destruct Ev as (k & K). rewrite K. replace (S (S (2 * k))) with ((k + 1) * 2)%nat by lia. rewrite Nat.div_mul by lia. lia. }
    destruct (hex_loop_even (48 :: x :: p') (48 :: s) 0 0 (repeat None 32) 0 q) as (m & Em & Lm & _ & Am); [lia|cbn [Nat.mul Nat.sub skipn]; rewrite E at 1; reflexivity|exact Ev2|exact DD|exact HB|].
    assert (SH : forall k i b mm, (1 <= i)%nat -> hex_loop (48 :: s) 0 k i b mm = hex_loop s 1 k i b mm).
    { induction k as [|k IH]; intros i b mm I; cbn [hex_loop]; auto. replace (nth (i - 0) (48 :: s) 0) with (nth (i - 1) s 0) by (destruct i; [lia|]; cbn; rewrite Nat.sub_0_r; reflexivity).
      destruct (if Nat.odd i then _ else _); [apply IH; lia|reflexivity]. }
    cbn [length] in Em. cbn [hex_loop] in Em. change (Nat.odd (2 * 0)) with false in Em. cbv iota in Em. change (nth (2 * 0 - 0) (48 :: s) 0) with 48 in Em.
    change (hex_loop (48 :: s) 0 (S (length p')) 1 48 (repeat None 32) = Some m) in Em. rewrite SH in Em by lia. rewrite Em. exists m. split.
    + f_equal. f_equal. cbn [length]. f_equal. lia.
    + split; [exact Lm|]. intros i I. apply (Am i). exact I.
  - assert (Ev : Nat.even (count_xdigits s) = true) by (rewrite <- Nat.negb_odd, O; reflexivity).
    assert (HB : (0 + length p / 2 <= length (repeat (@None N) 32))%nat).
    { rewrite repeat_length, L. cbn [Nat.add]. apply Nat.div_le_upper_bound; lia. }
    destruct (hex_loop_even p s 0 0 (repeat None 32) 0 q) as (m & Em & Lm & _ & Am); [lia|exact E|rewrite L; exact Ev|exact D|exact HB|].
    rewrite L in Em, Am. change (2 * 0)%nat with 0%nat in Em. rewrite Em. exists m. rewrite ?L. split; [reflexivity|]. split; [exact Lm|]. intros i I. apply (Am i I).
Qed.
Lemma filled_agrees : forall k m b, agrees m b k -> length b = k -> filled k m = Some b.
Proof.
  induction k as [|k IH]; intros m b A L; [destruct b; [reflexivity|discriminate]|]. destruct b as [|x b]; [discriminate|]. cbn [filled]. assert (A0 := A 0%nat ltac:(lia)). destruct m as [|[y|] m]; cbn in A0; try discriminate.
  inversion A0; subst y. rewrite (IH m b); [reflexivity| |inversion L; reflexivity]. intros i I. specialize (A (S i) ltac:(lia)). exact A.
Qed.
Lemma writes_hex : forall c d, writes c d -> isxdigit c = true /\ hex2byte c = d.
Proof.
  intros c d (n & -> & H). do 16 (destruct n as [|n]; [destruct H as [H|H]; cbn in H; inversion H; split; reflexivity|]). destruct H as [H|H]; cbn in H; destruct n; discriminate.
Qed.
Lemma hex_writes : forall c, isxdigit c = true -> writes c (hex2byte c).
Proof.
  intros c H. unfold isxdigit in H. rewrite !orb_true_iff, !andb_true_iff, !N.leb_le in H.
  assert (X : In c (str "0123456789abcdefABCDEF")) by (cbn; lia). cbn in X.
  repeat (destruct X as [<-|X]; [match goal with |- writes ?c _ => let v := eval vm_compute in (Z.to_nat (hex2byte c)) in exists v; split; [reflexivity|first [left; reflexivity|right; reflexivity]] end|]). destruct X.
Qed.
Lemma run_count : forall d ds r, Forall2 writes d ds -> match r with [] => True | c :: _ => forall k, ~ writes c k end -> count_xdigits (d ++ r) = length d /\ firstn (length d) (d ++ r) = d /\ map hex2byte d = ds /\ hex_digits d.
Proof.
  intros d ds r W H. split; [|split; [rewrite firstn_app, Nat.sub_diag, firstn_all, firstn_O, app_nil_r; reflexivity|]].
  - induction W as [|c k d ds Wc W IH].
    + destruct r as [|c r]; [reflexivity|]. cbn. destruct (isxdigit c) eqn:X; [|reflexivity]. exfalso. apply (H _ (hex_writes c X)).
    + cbn [app count_xdigits length]. rewrite (proj1 (writes_hex _ _ Wc)), IH. reflexivity.
  - induction W as [|c k d ds Wc W IH]; [split; [reflexivity|constructor]|]. destruct IH as (A & B). destruct (writes_hex _ _ Wc) as (X & Y). split; [cbn; rewrite Y, A; reflexivity|constructor; assumption].
Qed.
Lemma number_inj : forall b b', length b = length b' -> Forall (fun y => y < 256) b -> Forall (fun y => y < 256) b' -> number 256 (map Z.of_N b) = number 256 (map Z.of_N b') -> b = b'.
Proof.
  intros b. induction b as [|x b IH] using rev_ind; intros b' L F F' E.
  - destruct b'; [reflexivity|discriminate].
  - destruct b' as [|y b' _] using rev_ind; [rewrite app_length in L; cbn in L; lia|].
    rewrite !app_length in L. cbn in L. apply Forall_app in F. apply Forall_app in F'. destruct F as (F1 & F2), F' as (F1' & F2'). apply Forall_inv in F2. apply Forall_inv in F2'.
    unfold number in E. rewrite !map_app, !fold_left_app in E. cbn [map fold_left] in E.
    assert (x = y /\ fold_left (fun a d : Z => (a * 256 + d)%Z) (map Z.of_N b) 0%Z = fold_left (fun a d : Z => (a * 256 + d)%Z) (map Z.of_N b') 0%Z) by lia.
    destruct H as (-> & H). f_equal. apply IH; [lia|assumption|assumption|exact H].
Qed.
Lemma hex_pattern : forall x d ds b r, x = 120 \/ x = 88 -> Forall2 writes d ds -> (length d <= 64)%nat -> match r with [] => True | c :: _ => forall k, ~ writes c k end ->
  length b = ((length d + 1) / 2)%nat -> Forall (fun y => y < 256) b -> number 256 (map Z.of_N b) = number 16 ds -> parse_fill (48 :: x :: d ++ r) = Some b.
Proof.
  intros x d ds b r X W L H Lb Fb Nb. cbn [parse_fill]. replace (tolower x =? 120) with true by (destruct X as [-> | ->]; reflexivity). destruct (run_count d ds r W H) as (C & P & M & D).
  destruct (fill_hex_spec (d ++ r)) as (m & E & _ & A); [rewrite C; exact L|]. rewrite E. rewrite C, P in *.
  destruct (pairs_value (padded d) (padded_digits d D) (padded_even d)) as (V & F). apply filled_agrees.
  - replace b with (pairs (padded d)); [exact A|]. apply number_inj; [rewrite pairs_length, padded_half, Lb; reflexivity|exact F|exact Fb|]. rewrite V, padded_value, M, Nb. reflexivity.
  - rewrite Lb, padded_half. reflexivity.
Qed.
(** decimal *)
Lemma value_snoc : forall d c, value (d ++ [c]) = 10 * value d + (c - 48). Proof. intros d c. unfold value. rewrite fold_left_app. reflexivity. Qed.
Lemma value_from : forall d a, fold_left (fun a c => 10 * a + (c - 48)) d a = a * 10 ^ N.of_nat (length d) + value d.
Proof.
  unfold value. induction d as [|c d IH]; intros a; [cbn; lia|]. cbn [fold_left length]. rewrite (IH (10 * a + (c - 48))), (IH (10 * 0 + (c - 48))). rewrite Nat2N.inj_succ, N.pow_succ_r'. lia.
Qed.
Lemma ull_value : forall d r a, Forall digit d -> stops r -> fold_left (fun a c => 10 * a + (c - 48)) d a < 2 ^ 64 -> ull_digits (d ++ r) a = fold_left (fun a c => 10 * a + (c - 48)) d a.
Proof.
  induction d as [|c d IH]; intros r a D S0 L.
  - cbn [app fold_left]. destruct r as [|c r]; [reflexivity|]. cbn [ull_digits]. cbn in S0. destruct ((48 <=? c) && (c <=? 57)) eqn:Q; [|reflexivity]. rewrite andb_true_iff, !N.leb_le in Q. lia.
  - pose proof (Forall_inv D) as Dc. pose proof (Forall_inv_tail D) as Dd. unfold digit in Dc. cbn [app ull_digits fold_left]. replace ((48 <=? c) && (c <=? 57)) with true by (symmetry; rewrite andb_true_iff, !N.leb_le; lia).
    cbn [fold_left] in L. assert (10 * a + (c - 48) < 2 ^ 64).
    { rewrite value_from in L. assert (1 <= 10 ^ N.of_nat (length d)) by (pose proof (N.pow_nonzero 10 (N.of_nat (length d))); lia). nia. }
    rewrite N.min_l by lia. apply IH; assumption.
Qed.
Lemma strtoull_value : forall d r, d <> [] -> Forall digit d -> value d < 2 ^ 64 -> stops r -> strtoull (d ++ r) = value d.
Proof.
  intros d r N0 D L S0. destruct d as [|c d]; [congruence|]. pose proof (Forall_inv D) as Dc. unfold digit in Dc. unfold strtoull. cbn [app strip_left]. replace (isspace c) with false by (symmetry; apply not_white; unfold white; cbn; lia).
  assert (E := ull_value (c :: d) r 0 D S0 L). cbn [app] in E. change (fold_left _ (c :: d) 0) with (value (c :: d)) in E.
  assert (Q : (if ull_digits (c :: d ++ r) 0 <? 2 ^ 64 then ull_digits (c :: d ++ r) 0 else 2 ^ 64 - 1) = value (c :: d)). { rewrite E. replace (value (c :: d) <? 2 ^ 64) with true by (symmetry; apply N.ltb_lt; exact L). reflexivity. }
  assert (X : In c [48; 49; 50; 51; 52; 53; 54; 55; 56; 57]) by (cbn; lia). cbn in X. repeat (destruct X as [<-|X]; [exact Q|]). destruct X.
Qed.
Lemma stored_length : forall k v, length (stored k v) = k. Proof. induction k as [|k IH]; intros v; cbn; [|rewrite IH]; reflexivity. Qed.
Lemma stored_small : forall k v, Forall (fun y => y < 256) (stored k v). Proof. induction k as [|k IH]; intros v; constructor; [apply N.mod_lt; discriminate|apply IH]. Qed.
Lemma stored_value : forall k v, v < 256 ^ N.of_nat k -> number 256 (map Z.of_N (rev (stored k v))) = Z.of_N v.
Proof.
  induction k as [|k IH]; intros v H; [cbn in *; unfold number; cbn; lia|]. cbn [stored rev]. unfold number. rewrite map_app, fold_left_app. cbn [map fold_left]. change (fold_left _ (map Z.of_N (rev (stored k (v / 256)))) 0%Z) with (number 256 (map Z.of_N (rev (stored k (v / 256))))).
  rewrite IH; [rewrite N2Z.inj_div, N2Z.inj_mod; pose proof (Z_div_mod_eq_full (Z.of_N v) 256); lia|]. rewrite Nat2N.inj_succ, N.pow_succ_r' in H. apply N.div_lt_upper_bound; lia.
Qed.
Lemma number_small : forall b, Forall (fun y => y < 256) b -> (number 256 (map Z.of_N b) < 256 ^ Z.of_nat (length b))%Z.
Proof.
  induction b as [|x b IH] using rev_ind; intros F; [cbn; unfold number; cbn; lia|]. apply Forall_app in F. destruct F as (F1 & F2). apply Forall_inv in F2. specialize (IH F1).
  unfold number in *. rewrite map_app, fold_left_app, app_length. cbn [map fold_left length]. replace (Z.of_nat (length b + 1)) with (Z.succ (Z.of_nat (length b))) by lia. rewrite Z.pow_succ_r by lia. lia.
Qed.
Lemma dec_pattern : forall d b r, d <> [] -> Forall digit d -> value d < 2 ^ 64 -> stops r ->
  (length b = 1%nat \/ (length b = 2%nat /\ 256 <= value d) \/ (length b = 4%nat /\ 256 ^ 2 <= value d) \/ (length b = 8%nat /\ 256 ^ 4 <= value d)) ->
  Forall (fun y => y < 256) b -> number 256 (map Z.of_N (rev b)) = Z.of_N (value d) -> parse_fill (d ++ r) = Some b.
Proof.
  intros d b r N0 D L S0 Lb Fb Nb. pose proof (strtoull_value d r N0 D L S0) as E.
  assert (V : Some (stored (if value d <=? 0xFF then 1 else if value d <=? 0xFFFF then 2 else if value d <=? 0xFFFFFFFF then 4 else 8) (value d)) = Some b).
  { f_equal. assert (Fr : Forall (fun y => y < 256) (rev b)) by (apply Forall_rev, Fb). pose proof (number_small (rev b) Fr) as NS. rewrite rev_length, Nb in NS.
    assert (K : length b = if value d <=? 0xFF then 1%nat else if value d <=? 0xFFFF then 2%nat else if value d <=? 0xFFFFFFFF then 4%nat else 8%nat).
    { destruct (N.leb_spec (value d) 0xFF) as [Q1|Q1]; [destruct Lb as [Lb|[(Lb & ?)|[(Lb & ?)|(Lb & ?)]]]; [exact Lb|lia|exfalso; lia|exfalso; lia]|].
      destruct (N.leb_spec (value d) 0xFFFF) as [Q2|Q2]; [destruct Lb as [Lb|[(Lb & ?)|[(Lb & ?)|(Lb & ?)]]]; [rewrite Lb in NS; cbn in NS; lia|exact Lb|exfalso; lia|exfalso; lia]|].
      destruct (N.leb_spec (value d) 0xFFFFFFFF) as [Q3|Q3]; destruct Lb as [Lb|[(Lb & ?)|[(Lb & ?)|(Lb & ?)]]]; rewrite Lb in NS; try exact Lb; cbn in NS; exfalso; lia. }
    assert (ST : value d < 256 ^ N.of_nat (length b)) by (rewrite K; destruct (N.leb_spec (value d) 0xFF); [cbn; lia|]; destruct (N.leb_spec (value d) 0xFFFF); [cbn; lia|]; destruct (N.leb_spec (value d) 0xFFFFFFFF); cbn; lia).
    rewrite <- K. rewrite <- (rev_involutive b) at 2. rewrite <- (rev_involutive (stored (length b) (value d))). f_equal. apply number_inj; [rewrite !rev_length; apply stored_length|apply Forall_rev, stored_small|exact Fr|]. rewrite stored_value by exact ST. symmetry. exact Nb. }
  destruct d as [|c d]; [congruence|]. pose proof (Forall_inv D) as Dc. unfold digit in Dc.
  assert (X : forall x y, d ++ r = x :: y -> (tolower x =? 120) = false).
  { intros x y Q. apply N.eqb_neq. destruct d as [|z d]; cbn [app] in Q.
    - subst r. cbn in S0. unfold tolower. destruct ((65 <=? x) && (x <=? 90)) eqn:T; [rewrite andb_true_iff, !N.leb_le in T; lia|lia].
    - inversion Q; subst z. pose proof (Forall_inv (Forall_inv_tail D)) as Dz. unfold digit in Dz. unfold tolower. destruct ((65 <=? x) && (x <=? 90)) eqn:T; [rewrite andb_true_iff, !N.leb_le in T; lia|lia]. }
  unfold parse_fill. cbn [app] in *. rewrite E. destruct c as [|p]; [lia|]. destruct (d ++ r) as [|x y] eqn:Q; [repeat (destruct p as [p|p|]; try exact V)|]. rewrite (X x y eq_refl). repeat (destruct p as [p|p|]; try exact V).
Qed.
Lemma pattern_ok : forall v b r, pattern v b r -> parse_fill v = Some b.
Proof. intros v b r H. destruct H; [eapply hex_pattern; eassumption|apply dec_pattern; assumption]. Qed.
