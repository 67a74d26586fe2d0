From Coq Require Import List NArith ZArith Bool Arith Lia.
From Verif Require Import Base FilterModel MemcmpModel MemcmpSpec MemcmpProofs.
Import ListNotations.
Local Open Scope N_scope.

Lemma decides_of : forall r neg (P : Prop), (r = true <-> P) -> decides (Some (if Bool.eqb r (negb neg) then Match else Mismatch)) neg P.
Proof. intros r neg P H. split; [discriminate|]. destruct r, neg; cbn; intuition (try discriminate; try congruence). Qed.
Lemma decides_iff : forall o neg (P Q : Prop), decides o neg P -> (P <-> Q) -> decides o neg Q.
Proof. intros o neg P Q [D H] E. split; auto. rewrite H. destruct neg; tauto. Qed.
Definition eff_size (size dimension : N) : N := if size =? 0 then dimension else size.
Definition eff_width (width pointee : N) : N := if width =? 0 then pointee * 8 else width.
Lemma compare_spec : forall neg e a be ba pointee dimension z w K, agrees e be K -> agrees a ba K ->
  eff_size z dimension <> 0 -> eff_width w pointee <> 0 -> eff_size z dimension * eff_width w pointee < 18446744073709551616 -> eff_size z dimension * eff_width w pointee <= 8 * N.of_nat K ->
  decides (compare neg e pointee a dimension z w) neg (same_bits be ba (N.to_nat (eff_size z dimension * eff_width w pointee))).
Proof.
  intros neg e a be ba pointee dimension z w K A1 A2 Z W O L. unfold compare. fold (eff_size z dimension). fold (eff_width w pointee). cbv zeta.
  apply N.eqb_neq in Z, W. rewrite Z, W. cbn [orb]. unfold size_mul. rewrite N.mod_small by auto. destruct (bits_equal_spec e a be ba K (eff_size z dimension * eff_width w pointee) A1 A2) as (r & -> & R); [lia|].
  apply decides_of. auto.
Qed.
Lemma buffer_spec : forall neg b a pointee dimension size width,
  let bits := eff_size size dimension * eff_width width pointee in
  bits <> 0 -> bits < 18446744073709551616 -> bits <= 8 * N.of_nat (length b) -> bits <= 8 * N.of_nat (length a) ->
  decides (me neg (Buffer (map Some b) pointee) dimension size width (map Some a)) neg (same_bits b a (N.to_nat bits)).
Proof.
  intros neg b a pointee dimension size width bits Z O Lb La. cbn [me]. unfold bits in *. apply (compare_spec neg _ _ b a pointee dimension size width (Nat.min (length b) (length a))); auto; try (apply agrees_map; lia); try lia; intro E; apply Z; rewrite E; lia.
Qed.
Lemma literal_sized : forall neg s a dimension size width,
  let bits := eff_size size dimension * eff_width width 1 in
  (size <> 0 \/ width <> 0) -> bits <> 0 -> bits < 18446744073709551616 -> bits <= 8 * N.of_nat (length s + 1) -> bits <= 8 * N.of_nat (length a) ->
  decides (me neg (Literal s) dimension size width (map Some a)) neg (same_bits (s ++ [0]) a (N.to_nat bits)).
Proof.
  intros neg s a dimension size width bits G Z O Lb La. cbn [me]. replace ((width =? 0) && (size =? 0)) with false by (destruct (N.eqb_spec width 0), (N.eqb_spec size 0); cbn; auto; intuition congruence).
  unfold bits in *. cbn [source_mem]. change (map Some s ++ [Some 0]) with (map Some s ++ map Some [0]). rewrite <- map_app.
  apply (compare_spec neg _ _ (s ++ [0]) a 1 dimension size width (Nat.min (length s + 1) (length a))); auto; try (apply agrees_map; rewrite ?app_length; cbn; lia); try lia; intro E; apply Z; rewrite E; lia.
Qed.
Lemma text_spec : forall s a, (length s < length a)%nat -> exists r, same_text s (map Some a) = Some r /\ (r = true <-> begins (s ++ [0]) a).
Proof.
  unfold begins. induction s as [|c s IH]; intros [|x a] L; cbn in L; try lia; cbn [same_text map app length firstn].
  - exists (x =? 0). split; auto. rewrite N.eqb_eq. split; [intros ->; reflexivity|intros H; inversion H; auto].
  - destruct (IH a) as (r & E & R); [lia|]. destruct (N.eqb_spec c x) as [->|N].
    + exists r. split; auto. rewrite R. split; [intros ->; reflexivity|intros H; inversion H as [H1]; rewrite H1; auto].
    + exists false. split; auto. split; [discriminate|]. intros H. inversion H. congruence.
Qed.
Lemma bits_app : forall s q a k, (k <= 8 * length s)%nat -> (same_bits (s ++ q) a k <-> same_bits s a k).
Proof.
  intros s q a k L. unfold same_bits. assert (B : forall n, (n < k)%nat -> bit (s ++ q) n = bit s n) by (intros n N; unfold bit; rewrite app_nth1; auto; apply Nat.div_lt_upper_bound; lia).
  split; intros H n N; [rewrite <- B by auto|rewrite B by auto]; auto.
Qed.
Lemma literal_cases : forall neg s a dimension (P Q : Prop) o, (length s < length a)%nat ->
  (same_text s (map Some a) = Some false -> decides o neg Q) ->
  me neg (Literal s) dimension 0 0 (map Some a) = (match same_text s (map Some a) with None => None | Some true => Some (if neg then Mismatch else Match) | Some false => o end) ->
  decides (me neg (Literal s) dimension 0 0 (map Some a)) neg (begins (s ++ [0]) a \/ Q).
Proof.
  intros neg s a dimension _ Q o L D E. rewrite E. destruct (text_spec s a L) as (r & T & R). rewrite T in *. destruct r.
  - split; [discriminate|]. assert (begins (s ++ [0]) a) by tauto. destruct neg; intuition (try discriminate).
  - destruct (D eq_refl) as [D1 D2]. split; auto. rewrite D2. assert (~ begins (s ++ [0]) a) by (intro B; apply R in B; discriminate). destruct neg; tauto.
Qed.
Lemma compare_agree : forall neg e a be ba dimension z w K, agrees e be K -> agrees a ba K -> z <> 0 -> w <> 0 -> z * w < 18446744073709551616 -> z * w <= 8 * N.of_nat K ->
  decides (compare neg e 1 a dimension z w) neg (same_bits be ba (N.to_nat (z * w))).
Proof.
  intros neg e a be ba dimension z w K A1 A2 Z W O L. assert (EZ : eff_size z dimension = z) by (unfold eff_size; apply N.eqb_neq in Z; rewrite Z; auto). assert (EW : eff_width w 1 = w) by (unfold eff_width; apply N.eqb_neq in W; rewrite W; auto).
  pose proof (compare_spec neg e a be ba 1 dimension z w K A1 A2) as H. rewrite EZ, EW in H. apply H; auto.
Qed.
(** digits and classes of literals *)
Lemma writes_hex : forall c d, writes c d -> isxdigit c = true /\ hex2byte c = d.
Proof.
  intros c d (n & -> & H). assert (L : (n < 16)%nat) by (destruct H as [H|H]; [change 16%nat with (length (str "0123456789abcdef"))|change 16%nat with (length (str "0123456789ABCDEF"))]; apply nth_error_Some; rewrite H; discriminate).
  do 16 (destruct n as [|n]; [destruct H as [H|H]; injection H as <-; split; reflexivity|]). lia.
Qed.
Lemma hex_writes : forall c, isxdigit c = true -> writes c (hex2byte c).
Proof.
  intros c H. assert (L : (N.to_nat c < 103)%nat).
  { unfold isxdigit in H. destruct (48 <=? c) eqn:A, (c <=? 57) eqn:B, (65 <=? c) eqn:C, (c <=? 70) eqn:D, (97 <=? c) eqn:E, (c <=? 102) eqn:F; cbn in *; try discriminate; rewrite ?N.leb_le, ?N.leb_gt in *; lia. }
  assert (K : forallb (fun n => implb (isxdigit (N.of_nat n)) (existsb (fun k => (Z.of_nat k =? hex2byte (N.of_nat n))%Z && ((nth k (str "0123456789abcdef") 0 =? N.of_nat n) || (nth k (str "0123456789ABCDEF") 0 =? N.of_nat n))) (seq 0 16))) (seq 0 103) = true) by (vm_compute; reflexivity).
  rewrite forallb_forall in K. specialize (K (N.to_nat c)). rewrite N2Nat.id, H in K. cbn [implb] in K.
  assert (I : In (N.to_nat c) (seq 0 103)) by (apply in_seq; lia). specialize (K I). apply existsb_exists in K. destruct K as (k & Ik & K). apply andb_prop in K. destruct K as [K1 K2]. apply in_seq in Ik.
  exists k. split; [apply Z.eqb_eq in K1; auto|]. apply orb_prop in K2. destruct K2 as [K2|K2]; apply N.eqb_eq in K2; [left|right]; (etransitivity; [apply nth_error_nth' with (d := 0); cbn; lia|f_equal; auto]).
Qed.
Lemma white_space : forall c, white c <-> isspace c = true.
Proof.
  intros c. unfold white, isspace. cbn. split.
  - intros H. intuition subst; reflexivity.
  - intros H. apply orb_prop in H. destruct H as [H|H]; [apply N.eqb_eq in H; subst; auto|]. apply andb_prop in H. destruct H as [A B]. apply N.leb_le in A, B. assert (c = 9 \/ c = 10 \/ c = 11 \/ c = 12 \/ c = 13) by lia. intuition subst; auto 10.
Qed.
Lemma bin_class : forall s, is_bin_string s = true <-> binlike s.
Proof.
  intros s. unfold is_bin_string, binlike. rewrite forallb_forall, Forall_forall. split; intros H c I; specialize (H c I).
  - rewrite !orb_true_iff, !N.eqb_eq, <- white_space in H. tauto.
  - rewrite !orb_true_iff, !N.eqb_eq, <- white_space. tauto.
Qed.
Lemma lower_x : forall x, tolower x = 120 <-> x = 120 \/ x = 88.
Proof. intros x. unfold tolower. destruct (65 <=? x) eqn:A, (x <=? 90) eqn:B; cbn; rewrite ?N.leb_le, ?N.leb_gt in *; lia. Qed.
Lemma prefix_class : forall s, match s with 48 :: x :: _ => tolower x =? 120 | _ => false end = true <-> exists r, s = str "0x" ++ r \/ s = str "0X" ++ r.
Proof.
  intros s. split.
  - destruct s as [|c [|x r]]; try (destruct (N.eq_dec c 48); [subst; discriminate|]; destruct c as [|p]; try discriminate; repeat (destruct p as [p|p|]; try discriminate)); try discriminate.
    intros H. assert (C : c = 48) by (destruct c as [|p]; try discriminate; repeat (destruct p as [p|p|]; try discriminate); auto). subst. apply N.eqb_eq, lower_x in H. exists r. destruct H; subst; auto.
  - intros (r & [-> | ->]); reflexivity.
Qed.
Lemma hex_class : forall s, is_hex_string s = true <-> hexlike s.
Proof.
  intros s. unfold is_hex_string, hexlike. rewrite orb_true_iff, prefix_class, forallb_forall, Forall_forall. apply or_iff_compat_l. split; intros H c I; specialize (H c I).
  - apply orb_prop in H. destruct H as [H|H]; [left; eexists; apply hex_writes; auto|right; apply white_space; auto].
  - apply orb_true_iff. destruct H as [(d & H)|H]; [left; apply (writes_hex c d); auto|right; apply white_space; auto].
Qed.
Lemma leading_run : forall s ds, leading s ds -> hex_digits (firstn (count_xdigits s) s) /\ map hex2byte (firstn (count_xdigits s) s) = ds /\ length ds = count_xdigits s.
Proof.
  intros s ds (run & rest & -> & W & R). induction W as [|c d run ds H W IH]; cbn [app].
  - destruct rest as [|c rest]; cbn [count_xdigits]; [repeat constructor|]. destruct (isxdigit c) eqn:X; [destruct (R _ (hex_writes c X))|]. repeat constructor.
  - destruct (writes_hex c d H) as [X V]. cbn [count_xdigits]. rewrite X. cbn [firstn map length]. destruct IH as (A & B & C). split; [constructor; auto|]. split; [f_equal; auto|lia].
Qed.
(** any literal decodes to the number written by its leading digits *)
Lemma hex_leading : forall s ds, leading s ds -> exists m b, hex2bytes s = Some (length b, m) /\ agrees m b (length b) /\ length b = ((length ds + 1) / 2)%nat /\ Forall (fun x => x < 256) b /\
  number 256 (map Z.of_N b) = number 16 ds.
Proof.
  intros s ds LD. destruct (leading_run s ds LD) as (D & V & L). destruct (hex2bytes_spec s) as (m & E & Lm & A). set (p := firstn (count_xdigits s) s) in *. exists m, (pairs (padded p)). rewrite pairs_length. split; auto. split; auto.
  assert (LP : length p = length ds) by (rewrite <- V, map_length; auto). split; [rewrite padded_half, LP; auto|].
  destruct (pairs_value (padded p) (padded_digits p D) (padded_even p)) as [W F]. split; auto. rewrite W, padded_value, V. auto.
Qed.
Lemma hex_literal : forall neg s ds a dimension, hexlike s -> ~ binlike s -> leading s ds -> ds <> [] -> N.of_nat (length s) < 2 ^ 60 -> (length s < length a)%nat -> Forall (fun x => x < 256) a ->
  exists b, length b = ((length ds + 1) / 2)%nat /\ Forall (fun x => x < 256) b /\ number 256 (map Z.of_N b) = number 16 ds /\
    decides (me neg (Literal s) dimension 0 0 (map Some a)) neg (begins (s ++ [0]) a \/ begins b a).
Proof.
  intros neg s ds a dimension HL NB LD NE LS LA FA. destruct (hex_leading s ds LD) as (m & b & E & A & Lb & Fb & V). exists b. split; auto. split; auto. split; auto.
  assert (LL : (length ds <= length s)%nat) by (destruct (leading_run s ds LD) as (_ & _ & ->); destruct (count_run s) as (q & _ & _ & _ & B); auto).
  assert (NZ : (1 <= length b)%nat) by (rewrite Lb; destruct ds as [|c ds]; [congruence|]; cbn [length]; replace (S (length ds) + 1)%nat with (S (S (length ds))) by lia; rewrite half_SS; lia).
  assert (UB : (length b <= length s)%nat). { rewrite Lb. apply Nat.div_le_upper_bound; [lia|]. destruct ds; [congruence|cbn in *; lia]. }
  apply (literal_cases neg s a dimension True (begins b a) (compare neg m 1 (map Some a) dimension (N.of_nat (length b)) 8)); auto.
  - intros _. change (2 ^ 60) with 1152921504606846976 in LS. apply (decides_iff _ _ (same_bits b a (N.to_nat (N.of_nat (length b) * 8)))).
    + apply (compare_agree neg m (map Some a) b a dimension (N.of_nat (length b)) 8 (length b)); auto; try lia. apply agrees_map. lia.
    + replace (N.to_nat (N.of_nat (length b) * 8)) with (8 * length b)%nat by lia. apply same_bytes; auto. lia.
  - cbn [me]. cbn [N.eqb andb]. assert (B : is_bin_string s = false) by (destruct (is_bin_string s) eqn:B; auto; apply bin_class in B; tauto). apply hex_class in HL. rewrite B, HL, E. reflexivity.
Qed.
Lemma hex_prefix : forall neg s r a dimension, s = str "0x" ++ r \/ s = str "0X" ++ r -> N.of_nat (length s) < 2 ^ 60 -> (length s < length a)%nat -> Forall (fun x => x < 256) a ->
  decides (me neg (Literal s) dimension 0 0 (map Some a)) neg (begins (s ++ [0]) a \/ begins [0] a).
Proof.
  intros neg s r a dimension P LS LA FA.
  assert (X : forall d, ~ writes 120 d /\ ~ writes 88 d) by (intros d; split; intros H; apply writes_hex in H; destruct H; discriminate).
  destruct (hex_literal neg s [0%Z] a dimension) as (b & Lb & Fb & V & D); auto.
  - left. exists r. auto.
  - intros H. destruct P as [-> | ->]; inversion H as [|? ? _ T]; subst; inversion T as [|? ? A _]; subst; cbv in A; intuition discriminate.
  - assert (W : Forall2 writes (str "0") [0%Z]) by (repeat constructor; exists 0%nat; split; auto).
    destruct P as [-> | ->]; [exists (str "0"), (str "x" ++ r)|exists (str "0"), (str "X" ++ r)]; (split; [auto|split; [exact W|cbn; intros d; apply (X d)]]).
  - discriminate.
  - cbn in Lb. destruct b as [|x [|y b]]; try discriminate. assert (x = 0) by (cbv [number map fold_left] in V; lia). subst. auto.
Qed.
Lemma bin_literal : forall neg s a dimension, bin_digits s -> denoted s <> [] -> N.of_nat (length s) < 2 ^ 60 -> (length s < length a)%nat ->
  decides (me neg (Literal s) dimension 0 0 (map Some a)) neg (begins (s ++ [0]) a \/ forall n, (n < length (denoted s))%nat -> bit a n = nth n (denoted s) false).
Proof.
  intros neg s a dimension D ND LS LA. destruct (bin_decode s) as (m & b & E & A & Lb & B).
  assert (UB : (length (denoted s) <= length s)%nat) by (unfold denoted; rewrite map_length; clear; induction s as [|c s IH]; cbn; auto; destruct (negb (c =? 32)); cbn; lia).
  assert (NZ : (1 <= length (denoted s))%nat) by (destruct (denoted s); [congruence|cbn; lia]).
  apply (literal_cases neg s a dimension True _ (compare neg m 1 (map Some a) dimension (N.of_nat (length (denoted s))) 1)); auto.
  - intros _. change (2 ^ 60) with 1152921504606846976 in LS. apply (decides_iff _ _ (same_bits b a (N.to_nat (N.of_nat (length (denoted s)) * 1)))).
    + apply (compare_agree neg m (map Some a) b a dimension (N.of_nat (length (denoted s))) 1 (length s)); auto; try lia. apply agrees_map. lia.
    + replace (N.to_nat (N.of_nat (length (denoted s)) * 1)) with (length (denoted s)) by lia. unfold same_bits. split; intros H n N; [rewrite <- H by auto; apply B; auto|rewrite H by auto; apply B; auto].
  - cbn [me]. cbn [N.eqb andb]. assert (H : is_bin_string s = true). { apply forallb_forall. intros c I. unfold bin_digits in D. rewrite Forall_forall in D. destruct (D c I) as [->|[->| ->]]; reflexivity. }
    rewrite H, E. reflexivity.
Qed.
Lemma text_literal : forall neg s a dimension, ~ binlike s -> ~ hexlike s -> N.of_nat (length s) < 2 ^ 60 -> (length s < length a)%nat -> Forall (fun x => x < 256) s -> Forall (fun x => x < 256) a ->
  decides (me neg (Literal s) dimension 0 0 (map Some a)) neg (begins s a).
Proof.
  intros neg s a dimension NB' NH' LS LA FS FA. assert (NB : is_bin_string s = false) by (destruct (is_bin_string s) eqn:B; auto; apply bin_class in B; tauto). assert (NH : is_hex_string s = false) by (destruct (is_hex_string s) eqn:B; auto; apply hex_class in B; tauto). assert (NZ : (1 <= length s)%nat) by (destruct s; [discriminate|cbn; lia]).
  apply (decides_iff _ _ (begins (s ++ [0]) a \/ begins s a)).
  - apply (literal_cases neg s a dimension True _ (compare neg (source_mem (Literal s)) 1 (map Some a) dimension (N.of_nat (length s)) 8)); auto.
    + intros _. change (2 ^ 60) with 1152921504606846976 in LS. apply (decides_iff _ _ (same_bits (s ++ [0]) a (N.to_nat (N.of_nat (length s) * 8)))).
      * apply (compare_agree neg (source_mem (Literal s)) (map Some a) (s ++ [0]) a dimension (N.of_nat (length s)) 8 (length s)); auto; try lia; [|apply agrees_map; lia].
        cbn [source_mem]. change (map Some s ++ [Some 0]) with (map Some s ++ map Some [0]). rewrite <- map_app. apply agrees_map. rewrite app_length. lia.
      * replace (N.to_nat (N.of_nat (length s) * 8)) with (8 * length s)%nat by lia. rewrite bits_app by lia. apply same_bytes; auto. lia.
    + cbn [me]. cbn [N.eqb andb]. rewrite NB, NH. reflexivity.
  - split; [|tauto]. intros [H|H]; auto. unfold begins in *. rewrite app_length in H. cbn in H. replace (length s) with (Nat.min (length s) (length s + 1)) at 1 by lia. rewrite <- firstn_firstn, H. rewrite firstn_app, Nat.sub_diag, firstn_all. cbn. apply app_nil_r.
Qed.
