(** Proofs: a well written list of attributes. *)
From Coq Require Import List NArith ZArith Bool Arith Lia.
From Verif Require Import Base FilterModel FilterProofs MemModel SockModel SockProofs MemcmpModel MemcmpSpec MemcmpProofs BlockModel BlockSpec BlockProofs.
Import ListNotations.
Local Open Scope N_scope.

Lemma lower_idem : forall c, lower (lower c) = lower c.
Proof. intros c. rewrite <- !tolower_lower. unfold tolower. destruct ((65 <=? c) && (c <=? 90)) eqn:E; [|rewrite E; reflexivity]. rewrite andb_true_iff, !N.leb_le in E. destruct ((65 <=? c + 32) && (c + 32 <=? 90)) eqn:F; [rewrite andb_true_iff, !N.leb_le in F; lia|reflexivity]. Qed.
Lemma fold_idem : forall s, fold_str true (fold_str true s) = fold_str true s.
Proof. intros s. unfold fold_str. rewrite map_map. apply map_ext. intros c. apply lower_idem. Qed.
Lemma mentioned_fold : forall k s, mentioned k s -> mentioned k (fold_str true s).
Proof. intros k s (a & b & c & W & ->). exists (fold_str true a), (fold_str true b), (fold_str true c). split; [unfold worded; rewrite fold_idem; exact W|]. unfold fold_str. rewrite !map_app. reflexivity. Qed.
(** a letter of the key *)
Definition letter (c : byte) : Prop := 97 <= c <= 122.
Definition key (k : bytes) : Prop := k <> [] /\ Forall letter k.
(** nothing of a word *)
Definition apart (c : byte) : Prop := white c \/ c = 44 \/ c = 61.
Lemma apart_low : forall c, apart c -> tolower c < 65.
Proof. intros c H. unfold tolower. assert (c < 65) by (destruct H as [H|H]; [cbn in H|]; lia). destruct ((65 <=? c) && (c <=? 90)) eqn:E; [rewrite andb_true_iff, !N.leb_le in E; lia|exact H0]. Qed.
Lemma letter_high : forall c, letter c -> tolower c = c.
Proof. intros c H. unfold letter in H. unfold tolower. destruct ((65 <=? c) && (c <=? 90)) eqn:E; [rewrite andb_true_iff, !N.leb_le in E; lia|reflexivity]. Qed.
Lemma prefix_cut : forall k x c r, Forall letter k -> apart c -> case_prefix k (x ++ c :: r) = case_prefix k x.
Proof.
  induction k as [|a k IH]; intros x c r L A; [reflexivity|]. pose proof (Forall_inv L) as La. pose proof (Forall_inv_tail L) as Lk. destruct x as [|y x]; cbn [app case_prefix].
  - replace (tolower a =? tolower c) with false; [reflexivity|]. symmetry. apply N.eqb_neq. rewrite (letter_high a La). pose proof (apart_low c A). unfold letter in La. lia.
  - rewrite IH by assumption. reflexivity.
Qed.
Lemma from_cut : forall x k c r, key k -> apart c -> from_key (x ++ c :: r) k = match from_key x k with Some t => Some (t ++ c :: r) | None => from_key r k end.
Proof.
  intros x k c r (N0 & L) A. induction x as [|y x IH].
  - cbn [app from_key]. pose proof (prefix_cut k [] c r L A) as P. cbn [app] in P. rewrite P. destruct k as [|a k]; [congruence|]. reflexivity.
  - cbn [app from_key]. pose proof (prefix_cut k (y :: x) c r L A) as P. cbn [app] in P. rewrite P. destruct (case_prefix k (y :: x)); [reflexivity|exact IH].
Qed.
Lemma from_apart : forall w k y, key k -> Forall apart w -> from_key (w ++ y) k = from_key y k.
Proof.
  intros w k y K W. induction W as [|c w A W IH]; [reflexivity|]. cbn [app]. rewrite <- IH. pose proof (from_cut [] k c (w ++ y) K A) as E. cbn [app] in E. rewrite E. destruct K as (N0 & _). destruct k; [congruence|]. reflexivity.
Qed.
(** behind an item *)
Definition ends (r : bytes) : Prop := match r with [] => True | c :: _ => white c \/ c = 44 end.
Lemma from_end : forall x k r, key k -> ends r -> from_key (x ++ r) k = match from_key x k with Some t => Some (t ++ r) | None => match r with [] => None | _ :: r' => from_key r' k end end.
Proof.
  intros x k [|c r] K E; [rewrite app_nil_r; destruct (from_key x k) as [t|]; [rewrite app_nil_r; reflexivity|reflexivity]|]. apply from_cut; [exact K|]. destruct E as [E|E]; [left; exact E|right; left; exact E].
Qed.
Lemma name_key : forall i, key (name i).
Proof. intros [v|v|v| |]; (split; [discriminate|]); cbn; repeat (apply Forall_cons; [unfold letter; lia|]); apply Forall_nil. Qed.
Lemma names_apart : forall i j, name i <> name j -> ~ mentioned (name j) (fold_str true (name i)).
Proof. intros i j H. apply from_key_none. destruct i, j; try (exfalso; apply H; reflexivity); reflexivity. Qed.
Lemma word_name : forall i b, worded (name i) b -> forall j, (name i = name j -> from_key b (name j) = Some b) /\ (name i <> name j -> from_key b (name j) = None).
Proof.
  intros i b W j. split; intros E.
  - rewrite <- E. assert (P : case_prefix (name i) b = true) by (apply case_prefix_word; exists b, []; split; [exact W|symmetry; apply app_nil_r]). destruct b as [|c b]; cbn [from_key]; rewrite P; reflexivity.
  - apply from_key_none. intros M. apply mentioned_fold in M. rewrite W in M. revert M. apply names_apart, E.
Qed.
Lemma numeric_none : forall v i, numeric v -> from_key v (name i) = None.
Proof.
  intros v i (_ & H). apply from_key_none. intros (a & b & c & W & ->).
  assert (X : forall x, In x (fold_str true (name i)) -> exists y, In y (a ++ b ++ c) /\ lower y = x).
  { intros x I. rewrite <- W in I. unfold fold_str in I. apply in_map_iff in I. destruct I as (y & Q & I). exists y. split; [apply in_app_iff; right; apply in_app_iff; left; exact I|exact Q]. }
  assert (Y : In 108 (fold_str true (name i)) \/ In 109 (fold_str true (name i))) by (destruct i; cbn; auto 10).
  destruct Y as [Y|Y]; apply X in Y; destruct Y as (y & I & Q); apply H in I; lia.
Qed.
Lemma blank_apart : forall w, blank w -> Forall apart w. Proof. intros w H. eapply Forall_impl; [|exact H]. intros c C. left. exact C. Qed.
Lemma spelt_key : forall i t, spelt i t -> forall j, (name i = name j -> from_key t (name j) = Some t) /\ (name i <> name j -> from_key t (name j) = None).
Proof.
  intros i t H j. destruct H as [i b F W|i b w1 w2 v F Nv W B1 B2]; [apply word_name, W|].
  assert (E : from_key (b ++ w1 ++ [61] ++ w2 ++ v) (name j) = match from_key b (name j) with Some t => Some (t ++ w1 ++ [61] ++ w2 ++ v) | None => None end).
  { assert (S0 : exists c r, w1 ++ [61] ++ w2 ++ v = c :: r /\ apart c /\ from_key r (name j) = None).
    { assert (Z : from_key (w2 ++ v) (name j) = None) by (rewrite from_apart; [apply numeric_none, Nv|apply name_key|apply blank_apart, B2]).
      destruct w1 as [|c w1]; [exists 61, (w2 ++ v); split; [reflexivity|]; split; [right; right; reflexivity|exact Z]|].
      exists c, (w1 ++ [61] ++ w2 ++ v). split; [reflexivity|]. pose proof (Forall_inv B1) as Bc. split; [left; exact Bc|].
      rewrite (app_assoc w1), from_apart; [exact Z|apply name_key|]. apply Forall_app. split; [apply blank_apart, (Forall_inv_tail B1)|constructor; [right; right; reflexivity|constructor]]. }
    destruct S0 as (c & r & -> & A & Z). rewrite from_cut; [|apply name_key|exact A]. rewrite Z. reflexivity. }
  rewrite E. destruct (word_name i b W j) as (P & Q). split; intros X; [rewrite (P X)|rewrite (Q X)]; reflexivity.
Qed.
Lemma listed_none : forall is s, listed is s -> forall j, (forall i, In i is -> name i <> name j) -> from_key s (name j) = None.
Proof.
  induction 1 as [w B|i w1 t w2 B1 Sp B2|i w1 t w2 is s B1 Sp B2 L IH]; intros j H.
  - rewrite <- (app_nil_r w), from_apart; [|apply name_key|apply blank_apart, B]. destruct (name_key j) as (K & _). destruct (name j); [congruence|reflexivity].
  - rewrite from_apart; [|apply name_key|apply blank_apart, B1]. rewrite from_end; [|apply name_key|destruct w2; [exact I|left; apply (Forall_inv B2)]]. rewrite (proj2 (spelt_key i t Sp j)) by (apply H; left; reflexivity).
    destruct w2 as [|c w2]; [reflexivity|]. rewrite <- (app_nil_r w2), from_apart; [|apply name_key|apply blank_apart, (Forall_inv_tail B2)]. destruct (name_key j) as (K & _). destruct (name j); [congruence|reflexivity].
  - assert (E : from_key s (name j) = None) by (apply IH; intros x I; apply H; right; exact I).
    rewrite from_apart; [|apply name_key|apply blank_apart, B1]. rewrite from_end; [|apply name_key|destruct w2; [right; reflexivity|left; apply (Forall_inv B2)]]. rewrite (proj2 (spelt_key i t Sp j)) by (apply H; left; reflexivity).
    destruct w2 as [|c w2]; cbn [app]; [exact E|]. change (w2 ++ 44 :: s) with (w2 ++ [44] ++ s). rewrite app_assoc, from_apart; [exact E|apply name_key|]. apply Forall_app. split; [apply blank_apart, (Forall_inv_tail B2)|constructor; [right; left; reflexivity|constructor]].
Qed.
Lemma sort_name : forall i j, name i = name j <-> sort i = sort j.
Proof. intros i j. destruct i, j; cbn; split; intros H; try reflexivity; try discriminate H. Qed.
Lemma listed_some : forall is s, listed is s -> NoDup (map sort is) -> forall i, In i is -> exists t r, spelt i t /\ ends r /\ from_key s (name i) = Some (t ++ r).
Proof.
  induction 1 as [w B|i w1 t w2 B1 Sp B2|i w1 t w2 is s B1 Sp B2 L IH]; intros ND j I0.
  - destruct I0.
  - destruct I0 as [<-|[]]. exists t, w2. split; [exact Sp|]. split; [destruct w2; [exact I|left; apply (Forall_inv B2)]|]. rewrite from_apart; [|apply name_key|apply blank_apart, B1]. rewrite from_end; [|apply name_key|destruct w2; [exact I|left; apply (Forall_inv B2)]].
    rewrite (proj1 (spelt_key i t Sp i)) by reflexivity. reflexivity.
  - cbn [map] in ND. inversion ND as [|x y NI ND' Q]; subst x y. assert (En : ends (w2 ++ [44] ++ s)) by (destruct w2; [right; reflexivity|left; apply (Forall_inv B2)]).
    rewrite from_apart; [|apply name_key|apply blank_apart, B1]. rewrite from_end; [|apply name_key|exact En]. destruct I0 as [<-|I0].
    + exists t, (w2 ++ [44] ++ s). split; [exact Sp|]. split; [exact En|]. rewrite (proj1 (spelt_key i t Sp i)) by reflexivity. reflexivity.
    + rewrite (proj2 (spelt_key i t Sp j)). 2: { rewrite sort_name. intros E. apply NI. rewrite E. apply in_map, I0. }
      destruct (IH ND' j I0) as (t' & r & S' & R' & E). exists t', r. split; [exact S'|]. split; [exact R'|].
      destruct w2 as [|c w2]; cbn [app]; [exact E|]. change (w2 ++ 44 :: s) with (w2 ++ [44] ++ s). rewrite app_assoc, from_apart; [exact E|apply name_key|]. apply Forall_app. split; [apply blank_apart, (Forall_inv_tail B2)|constructor; [right; left; reflexivity|constructor]].
Qed.
Lemma get_listed : forall is s i v, listed is s -> NoDup (map sort is) -> In i is -> amount i = Some v -> exists r, ends r /\ get_keyvalue s (name i) = Some (v ++ r).
Proof.
  intros is s i v L ND I0 A. destruct (listed_some is s L ND i I0) as (t & r & Sp & R & E). exists r. split; [exact R|]. unfold get_keyvalue. rewrite E. destruct Sp as [i b F W|i b w1 w2 v' F Nv W B1 B2]; [congruence|]. rewrite F in A. inversion A; subst v'.
  rewrite <- (worded_length _ _ W), <- !app_assoc, skipn_app, skipn_all, Nat.sub_diag. cbn [skipn app]. rewrite (strip_blank w1 (61 :: w2 ++ v ++ r) B1) by (cbn; lia). rewrite strip_blank; [reflexivity|exact B2|]. destruct Nv as (Nv & _). destruct v as [|c v]; [destruct Nv|exact Nv].
Qed.
Lemma mention_listed : forall is s i, listed is s -> NoDup (map sort is) -> In i is -> get_keyvalue s (name i) <> None.
Proof. intros is s i L ND I0. apply get_mentioned. destruct (listed_some is s L ND i I0) as (t & r & _ & _ & E). destruct (from_key_first _ _ _ E) as (a & b & c & W & T & Q & _). exists a, b, c. rewrite T in Q. auto. Qed.
Lemma absent_listed : forall is s j, listed is s -> (forall i, In i is -> sort i <> sort j) -> get_keyvalue s (name j) = None.
Proof. intros is s j L H. unfold get_keyvalue. rewrite (listed_none is s L j); [reflexivity|]. intros i I0 E. apply sort_name in E. exact (H i I0 E). Qed.
Lemma ends_stops : forall r, ends r -> stops r. Proof. intros [|c r] H; [exact I|]. cbn in *. destruct H as [H|H]; [cbn in H|]; lia. Qed.
Lemma ends_nohex : forall r, ends r -> match r with [] => True | c :: _ => forall k, ~ writes c k end.
Proof.
  intros [|c r] H; [exact I|]. intros k W. apply writes_hex in W. destruct W as (W & _). unfold isxdigit in W. rewrite !orb_true_iff, !andb_true_iff, !N.leb_le in W. cbn in H. lia.
Qed.
Lemma numeral_more : forall v n r, numeral v n [] -> ends r -> numeral (v ++ r) n r.
Proof.
  intros v n r H E. inversion H; subst.
  - rewrite app_nil_r. apply n_dec; [assumption|assumption|assumption|apply ends_stops, E].
  - rewrite app_nil_r. cbn [app]. eapply n_hex; try eassumption. apply ends_stops, E.
Qed.
Lemma pattern_more : forall v b r, pattern v b [] -> ends r -> pattern (v ++ r) b r.
Proof.
  intros v b r H E. inversion H; subst.
  - rewrite app_nil_r. cbn [app]. eapply p_hex; try eassumption. apply ends_nohex, E.
  - rewrite app_nil_r. apply p_dec; try assumption. apply ends_stops, E.
Qed.
Definition is_sort (k : N) (is : list attribute) : {i | In i is /\ sort i = k} + {forall i, In i is -> sort i <> k}.
Proof.
  induction is as [|i is IH]; [right; intros i []|]. destruct (N.eq_dec (sort i) k) as [E|E]; [left; exists i; split; [left; reflexivity|exact E]|].
  destruct IH as [(j & I0 & F)|IH]; [left; exists j; split; [right; exact I0|exact F]|right; intros j [<-|I0]; [exact E|apply IH, I0]].
Defined.
Lemma written_ok : forall real is s, reads real -> listed is s -> NoDup (map sort is) ->
  (forall v, In (Limit v) is -> exists n, numeral v n []) -> (forall v, In (Align v) is -> exists n, numeral v n []) -> (forall v, In (Fill v) is -> exists b, pattern v b []) ->
  exists A, block_attributes real s = Some A /\
    (forall v n, In (Limit v) is -> numeral v n [] -> a_limit A = n) /\ ((forall v, ~ In (Limit v) is) -> a_limit A = 2 ^ 48 - 1) /\
    (forall v n, In (Align v) is -> numeral v n [] -> a_align A = n) /\ ((forall v, ~ In (Align v) is) -> a_align A = 8) /\
    (forall v b, In (Fill v) is -> pattern v b [] -> a_fill A = b) /\ ((forall v, ~ In (Fill v) is) -> a_fill A = []) /\
    (a_noleak A = true <-> In Noleak is) /\ (block_unmem s = true <-> In Unmem is).
Proof.
  intros real is s (R0 & R) L ND HL HA HF.
  assert (X : exists l, keyed s (str "limit") real (a_limit default_attrs) = Some l /\ (forall v n, In (Limit v) is -> numeral v n [] -> l = n) /\ ((forall v, ~ In (Limit v) is) -> l = 2 ^ 48 - 1)).
  { unfold keyed. destruct (is_sort 0 is) as [(i & I0 & E)|H].
    - destruct i as [v|v|v| |]; try discriminate E. destruct (HL v I0) as (n & Hn). destruct (get_listed is s (Limit v) v L ND I0 eq_refl) as (r & Er & G). cbn [name] in G. rewrite G. rewrite (R _ _ _ (numeral_more v n r Hn Er)).
      exists n. split; [reflexivity|]. split; [|intros K; exfalso; apply (K v I0)]. intros v2 n2 I2 Hn2. destruct (get_listed is s (Limit v2) v2 L ND I2 eq_refl) as (r2 & Er2 & G2). cbn [name] in G2. rewrite G in G2. inversion G2 as [Q].
      pose proof (R _ _ _ (numeral_more v n r Hn Er)) as R1. pose proof (R _ _ _ (numeral_more v2 n2 r2 Hn2 Er2)) as R2. rewrite <- Q in R2. congruence.
    - pose proof (absent_listed is s (Limit []) L H) as G. cbn [name] in G. rewrite G. eexists. split; [reflexivity|]. split; [intros v n I0; exfalso; apply (H _ I0); reflexivity|reflexivity]. }
  assert (Y : exists l, keyed s (str "align") real (a_align default_attrs) = Some l /\ (forall v n, In (Align v) is -> numeral v n [] -> l = n) /\ ((forall v, ~ In (Align v) is) -> l = 8)).
  { unfold keyed. destruct (is_sort 1 is) as [(i & I0 & E)|H].
    - destruct i as [v|v|v| |]; try discriminate E. destruct (HA v I0) as (n & Hn). destruct (get_listed is s (Align v) v L ND I0 eq_refl) as (r & Er & G). cbn [name] in G. rewrite G. rewrite (R _ _ _ (numeral_more v n r Hn Er)).
      exists n. split; [reflexivity|]. split; [|intros K; exfalso; apply (K v I0)]. intros v2 n2 I2 Hn2. destruct (get_listed is s (Align v2) v2 L ND I2 eq_refl) as (r2 & Er2 & G2). cbn [name] in G2. rewrite G in G2. inversion G2 as [Q].
      pose proof (R _ _ _ (numeral_more v n r Hn Er)) as R1. pose proof (R _ _ _ (numeral_more v2 n2 r2 Hn2 Er2)) as R2. rewrite <- Q in R2. congruence.
    - pose proof (absent_listed is s (Align []) L H) as G. cbn [name] in G. rewrite G. eexists. split; [reflexivity|]. split; [intros v n I0; exfalso; apply (H _ I0); reflexivity|reflexivity]. }
  assert (Z : exists l, keyed s (str "fill") parse_fill (a_fill default_attrs) = Some l /\ (forall v b, In (Fill v) is -> pattern v b [] -> l = b) /\ ((forall v, ~ In (Fill v) is) -> l = [])).
  { unfold keyed. destruct (is_sort 2 is) as [(i & I0 & E)|H].
    - destruct i as [v|v|v| |]; try discriminate E. destruct (HF v I0) as (n & Hn). destruct (get_listed is s (Fill v) v L ND I0 eq_refl) as (r & Er & G). cbn [name] in G. rewrite G. rewrite (pattern_ok _ _ _ (pattern_more v n r Hn Er)).
      exists n. split; [reflexivity|]. split; [|intros K; exfalso; apply (K v I0)]. intros v2 n2 I2 Hn2. destruct (get_listed is s (Fill v2) v2 L ND I2 eq_refl) as (r2 & Er2 & G2). cbn [name] in G2. rewrite G in G2. inversion G2 as [Q].
      pose proof (pattern_ok _ _ _ (pattern_more v n r Hn Er)) as R1. pose proof (pattern_ok _ _ _ (pattern_more v2 n2 r2 Hn2 Er2)) as R2. rewrite <- Q in R2. congruence.
    - pose proof (absent_listed is s (Fill []) L H) as G. cbn [name] in G. rewrite G. eexists. split; [reflexivity|]. split; [intros v n I0; exfalso; apply (H _ I0); reflexivity|reflexivity]. }
  destruct X as (l & EX & X1 & X2), Y as (a & EY & Y1 & Y2), Z as (f & EZ & Z1 & Z2). unfold block_attributes. rewrite EX, EY, EZ. eexists. split; [reflexivity|]. cbn [a_limit a_align a_fill a_noleak default_attrs].
  split; [exact X1|]. split; [exact X2|]. split; [exact Y1|]. split; [exact Y2|]. split; [exact Z1|]. split; [exact Z2|]. split.
  - split; intros H.
    + destruct (is_sort 3 is) as [(i & I0 & E)|K]; [destruct i; try discriminate E; exact I0|]. pose proof (absent_listed is s Noleak L K) as G. cbn [name] in G. rewrite G in H. discriminate.
    + pose proof (mention_listed is s Noleak L ND H) as G. cbn [name] in G. destruct (get_keyvalue s (str "noleak")); [reflexivity|congruence].
  - unfold block_unmem. split; intros H.
    + destruct (is_sort 4 is) as [(i & I0 & E)|K]; [destruct i; try discriminate E; exact I0|]. pose proof (absent_listed is s Unmem L K) as G. cbn [name] in G. rewrite G in H. discriminate.
    + pose proof (mention_listed is s Unmem L ND H) as G. cbn [name] in G. destruct (get_keyvalue s (str "unmem")); [reflexivity|congruence].
Qed.

(** ** any text *)
Lemma flags_ok : forall real s A, block_attributes real s = Some A -> (a_noleak A = true <-> mentioned (str "noleak") s).
Proof.
  intros real s A H. rewrite get_mentioned. unfold block_attributes in H. destruct (keyed s (str "limit") real (a_limit default_attrs)); [|discriminate]. destruct (keyed s (str "align") real (a_align default_attrs)); [|discriminate]. destruct (keyed s (str "fill") parse_fill (a_fill default_attrs)); [|discriminate].
  inversion H; subst A. cbn [a_noleak default_attrs]. destruct (get_keyvalue s (str "noleak")); split; congruence.
Qed.
Lemma unmem_ok : forall s, block_unmem s = true <-> mentioned (str "unmem") s.
Proof. intros s. rewrite get_mentioned. unfold block_unmem. destruct (get_keyvalue s (str "unmem")); split; congruence. Qed.
Lemma keyed_ok : forall real s A, block_attributes real s = Some A ->
  keyed s (str "limit") real (2 ^ 48 - 1) = Some (a_limit A) /\ keyed s (str "align") real 8 = Some (a_align A) /\ keyed s (str "fill") parse_fill [] = Some (a_fill A).
Proof.
  intros real s A H. unfold block_attributes in H. change (a_limit default_attrs) with (2 ^ 48 - 1) in H. change (a_align default_attrs) with 8 in H. change (a_fill default_attrs) with (@nil N) in H.
  destruct (keyed s (str "limit") real (2 ^ 48 - 1)); [|discriminate]. destruct (keyed s (str "align") real 8); [|discriminate]. destruct (keyed s (str "fill") parse_fill []); [|discriminate]. inversion H; subst A. auto.
Qed.
Lemma values_ok : forall real s A, reads real -> block_attributes real s = Some A ->
  (~ mentioned (str "limit") s -> a_limit A = 2 ^ 48 - 1) /\ (bare (str "limit") s -> a_limit A = 0) /\ (forall v n r, assigned (str "limit") s v -> numeral v n r -> a_limit A = n) /\
  (~ mentioned (str "align") s -> a_align A = 8) /\ (bare (str "align") s -> a_align A = 0) /\ (forall v n r, assigned (str "align") s v -> numeral v n r -> a_align A = n) /\
  (~ mentioned (str "fill") s -> a_fill A = []) /\ (bare (str "fill") s -> a_fill A = [0]) /\ (forall v b r, assigned (str "fill") s v -> pattern v b r -> a_fill A = b).
Proof.
  intros real s A (R0 & R) H. destruct (keyed_ok real s A H) as (K1 & K2 & K3). unfold keyed in K1, K2, K3.
  repeat split.
  - intros M. rewrite (get_absent _ _ M) in K1. congruence.
  - intros M. rewrite (get_bare _ _ M) in K1. congruence.
  - intros v n r M N1. rewrite (get_assigned _ _ _ M), (R _ _ _ N1) in K1. congruence.
  - intros M. rewrite (get_absent _ _ M) in K2. congruence.
  - intros M. rewrite (get_bare _ _ M) in K2. congruence.
  - intros v n r M N1. rewrite (get_assigned _ _ _ M), (R _ _ _ N1) in K2. congruence.
  - intros M. rewrite (get_absent _ _ M) in K3. congruence.
  - intros M. rewrite (get_bare _ _ M) in K3. cbn in K3. congruence.
  - intros v b r M N1. rewrite (get_assigned _ _ _ M), (pattern_ok _ _ _ N1) in K3. congruence.
Qed.

(** a strtod *)
Fixpoint run (f : byte -> bool) (s : bytes) : bytes := match s with c :: r => if f c then c :: run f r else [] | [] => [] end.
Definition simple_real (s : bytes) : option N :=
  let dec := Some (value (run (fun c => (48 <=? c) && (c <=? 57)) s)) in
  match s with 48 :: x :: r => if tolower x =? 120 then Some (Z.to_N (number 16 (map hex2byte (run isxdigit r)))) else dec | _ => dec end.
Lemma run_app : forall f d r, Forall (fun c => f c = true) d -> match r with [] => True | c :: _ => f c = false end -> run f (d ++ r) = d.
Proof. intros f d r D H. induction D as [|c d C D IH]; [destruct r as [|c r]; [reflexivity|]; cbn; rewrite H; reflexivity|]. cbn. rewrite C, IH. reflexivity. Qed.
Lemma simple_reads : reads simple_real.
Proof.
  split; [reflexivity|]. intros v n r H. destruct H as [d r N0 D V St|x d ds r X N0 W V St].
  - assert (Q : run (fun c => (48 <=? c) && (c <=? 57)) (d ++ r) = d).
    { apply run_app; [eapply Forall_impl; [|exact D]; intros c C; unfold digit in C; rewrite andb_true_iff, !N.leb_le; lia|]. destruct r as [|c r]; [exact I|]. cbn in St. rewrite andb_false_iff, !N.leb_gt. lia. }
    destruct d as [|c d]; [congruence|]. unfold simple_real. rewrite Q. cbn [app].
    assert (X : forall x y, d ++ r = x :: y -> (tolower x =? 120) = false).
    { intros x y E. apply N.eqb_neq. assert (K : x < 65 \/ 123 <= x). { destruct d as [|z d]; cbn [app] in E; [subst r; cbn in St; lia|]. inversion E; subst z. pose proof (Forall_inv (Forall_inv_tail D)) as Dz. unfold digit in Dz. lia. }
      unfold tolower. destruct ((65 <=? x) && (x <=? 90)) eqn:T; [rewrite andb_true_iff, !N.leb_le in T; lia|lia]. }
    destruct (d ++ r) as [|x y] eqn:E; [destruct c as [|p]; [reflexivity|]; repeat (destruct p as [p|p|]; try reflexivity)|]. rewrite (X x y eq_refl). destruct c as [|p]; [reflexivity|]; repeat (destruct p as [p|p|]; try reflexivity).
  - unfold simple_real. replace (tolower x =? 120) with true by (destruct X as [-> | ->]; reflexivity).
    assert (F : Forall (fun c => isxdigit c = true) d /\ map hex2byte d = ds). { clear - W. induction W as [|c k d ds C W (A & B)]; [split; [constructor|reflexivity]|]. apply writes_hex in C. destruct C as (C1 & C2). split; [constructor; assumption|cbn; rewrite C2, B; reflexivity]. }
    rewrite run_app; [rewrite (proj2 F); reflexivity|apply F|]. destruct r as [|c r]; [exact I|]. cbn in St. unfold isxdigit. rewrite !orb_false_iff, !andb_false_iff, !N.leb_gt. lia.
Qed.
