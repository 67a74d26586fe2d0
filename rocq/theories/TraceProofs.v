(** Proofs about backtraces (C78). *)
From Coq Require Import List NArith ZArith Bool Arith Lia.
From Verif Require Import Base FilterModel MemcmpModel MemcmpSpec TextModel TextSpec TextProofs SplitModel SplitSpec SplitProofs DumpModel DumpSpec DumpProofs2 NmModel NmSpec NmProofs NmProofs2 BlockProofs
  StubModel StubSpec StubProofs2 TraceModel TraceSpec.
Import ListNotations.
Local Open Scope N_scope.

(* ---- reading a line ---- *)
Lemma scan_set_app : forall f a b, a <> [] -> Forall (fun c => f c = true) a -> match b with [] => True | c :: _ => f c = false end -> scan_set f (a ++ b) = Some (a, b).
Proof. intros f a b A F B. unfold scan_set. rewrite span_app by assumption. destruct a; [contradiction|reflexivity]. Qed.
Lemma not_in_set : forall x s, ~ In x s -> Forall (fun c => negb (c =? x) = true) s.
Proof. intros x s H. apply Forall_forall. intros c C. apply negb_true_iff, N.eqb_neq. intros ->. contradiction. Qed.
Lemma letter : forall c, In c (str "_abcdefghijklmnopqrstuvwxyzABCDEFGHIJKLMNOPQRSTUVWXYZ") -> starts_name c = true.
Proof. intros c H. cbn in H. repeat (destruct H as [<-|H]; [reflexivity|]). destruct H. Qed.
Lemma name_set : forall n, ~ In 41 n -> ~ In 43 n -> Forall (fun c => negb (c =? 41) && negb (c =? 43) = true) n.
Proof. intros n A B. apply Forall_forall. intros c C. apply andb_true_iff. split; apply negb_true_iff, N.eqb_neq; intros ->; contradiction. Qed.
Lemma hex_digits_stop : forall s r a, Forall (fun c => isxdigit c = true) s -> match r with [] => True | c :: _ => isxdigit c = false end -> hex_digits (s ++ r) a = hex_digits s a.
Proof.
  intros s r a F R. revert a. induction F as [|c s C F IH]; intros a; cbn [app hex_digits].
  - destruct r as [|c r]; [reflexivity|]. cbn. rewrite R. reflexivity.
  - rewrite C. apply IH.
Qed.
Lemma writes_x : forall ds zs, Forall2 writes ds zs -> Forall (fun c => isxdigit c = true) ds.
Proof. intros ds zs W. induction W as [|c d s z C W IH]; constructor; [apply (writes_hex _ _ C)|exact IH]. Qed.
Lemma offset_ok : forall ds v rest, hex_of ds v -> scan_offset (str "+0x" ++ ds ++ [41] ++ rest) = Some v.
Proof.
  intros ds v rest ((L1 & L2) & zs & W & ->). destruct ds as [|c ds]; [cbn in L1; lia|].
  change (str "+0x" ++ (c :: ds) ++ [41] ++ rest) with (43 :: 48 :: 120 :: c :: (ds ++ [41] ++ rest)). cbn [scan_offset].
  pose proof (writes_x _ _ W) as X. inversion X as [|? ? Xc Xs]; subst. rewrite Xc. f_equal.
  rewrite <- (strtoull16_ok (c :: ds) zs W L2). unfold strtoull16. f_equal.
  change (c :: ds ++ [41] ++ rest) with ((c :: ds) ++ (41 :: rest)). apply hex_digits_stop; [exact X|reflexivity].
Qed.
Lemma digits_no : forall ds zs x, Forall2 writes ds zs -> isxdigit x = false -> ~ In x ds.
Proof. intros ds zs x W X H. pose proof (writes_x _ _ W) as F. rewrite Forall_forall in F. rewrite (F x H) in X. discriminate. Qed.

Lemma file_skipped : forall file r, path_ok file -> scan_set (fun c => negb (c =? 40)) (file ++ 40 :: r) = Some (file, 40 :: r).
Proof. intros file r (A & B). apply scan_set_app; [exact A|apply not_in_set, B|reflexivity]. Qed.

Lemma scan_offset_bad : forall c r, c <> 43 -> scan_offset (c :: r) = None.
Proof. intros c r D. unfold scan_offset. destruct c as [|p]; [reflexivity|]. do 6 (destruct p; try reflexivity). congruence. Qed.
Lemma named_gen : forall file n r, path_ok file -> name_ok n ->
  scan_named (file ++ [40] ++ n ++ 43 :: r) = if (length n <=? 1023)%nat then option_map (pair n) (scan_offset (43 :: r)) else None.
Proof.
  intros file n r P (B & N1 & N2). unfold scan_named. change (file ++ [40] ++ n ++ 43 :: r) with (file ++ 40 :: (n ++ 43 :: r)).
  rewrite (file_skipped _ _ P). change (40 :: n ++ 43 :: r) with ([40] ++ (n ++ 43 :: r)).
  rewrite scan_set_app; [|discriminate|constructor; [reflexivity|constructor]|destruct n as [|c n]; [contradiction|]; cbn [app]; rewrite (letter c B); reflexivity].
  unfold scan_1023. rewrite scan_set_app; [|destruct n; [contradiction|discriminate]|apply name_set; assumption|reflexivity].
  destruct (Nat.leb_spec (length n) 1023) as [L|L].
  - rewrite firstn_all2 by exact L. rewrite skipn_app, skipn_all, Nat.sub_diag. rewrite skipn_O, app_nil_l. reflexivity.
  - rewrite firstn_length, Nat.min_l by (apply Nat.lt_le_incl, L). rewrite skipn_app. replace (1023 - length n)%nat with O by (symmetry; apply Nat.sub_0_le, Nat.lt_le_incl, L). rewrite skipn_O.
    assert (S1 : (0 < length (skipn 1023 n))%nat) by (rewrite skipn_length; apply Nat.lt_add_lt_sub_r; exact L).
    assert (IN : forall c, In c (skipn 1023 n) -> In c n) by (intros c C; rewrite <- (firstn_skipn 1023 n); apply in_or_app; right; exact C).
    destruct (skipn 1023 n) as [|c t]; [cbn in S1; lia|]. cbn [app]. rewrite scan_offset_bad; [reflexivity|]. intros ->. apply N2, IN. left. reflexivity.
Qed.
Lemma named_ok : forall file n ds v rest, path_ok file -> name_ok n -> hex_of ds v ->
  scan_named (file ++ [40] ++ n ++ str "+0x" ++ ds ++ [41] ++ rest) = if (length n <=? 1023)%nat then Some (n, v) else None.
Proof.
  intros file n ds v rest P Q X. pose proof (offset_ok ds v rest X) as O. change (str "+0x" ++ ds ++ [41] ++ rest) with (43 :: 48 :: 120 :: ds ++ [41] ++ rest) in *.
  rewrite (named_gen _ _ _ P Q), O. reflexivity.
Qed.
Lemma nameless_gen : forall file n r, path_ok file -> ~ In 43 n -> scan_nameless (file ++ [40] ++ n ++ 43 :: r) = scan_offset (43 :: r).
Proof.
  intros file n r P N2. unfold scan_nameless. change (file ++ [40] ++ n ++ 43 :: r) with (file ++ 40 :: (n ++ 43 :: r)).
  rewrite (file_skipped _ _ P). change (40 :: n ++ 43 :: r) with ((40 :: n) ++ (43 :: r)).
  rewrite scan_set_app; [reflexivity|discriminate|constructor; [reflexivity|apply not_in_set, N2]|reflexivity].
Qed.
Lemma nameless_ok : forall file n ds v rest, path_ok file -> ~ In 43 n -> hex_of ds v -> scan_nameless (file ++ [40] ++ n ++ str "+0x" ++ ds ++ [41] ++ rest) = Some v.
Proof.
  intros file n ds v rest P N2 X. pose proof (offset_ok ds v rest X) as O. change (str "+0x" ++ ds ++ [41] ++ rest) with (43 :: 48 :: 120 :: ds ++ [41] ++ rest) in *.
  rewrite (nameless_gen _ _ _ P N2). exact O.
Qed.
(** after the letter, the scan of a name stops at a right parenthesis *)
Lemma scan_close : forall a rest f, Forall (fun c => negb (c =? 41) && negb (c =? 43) = true) a -> (a <> []) -> (match scan_1023 (fun c => negb (c =? 41) && negb (c =? 43)) (a ++ 41 :: rest) with None => None | Some (n, r) => option_map (f n) (scan_offset r) end) = (@None (bytes * N)).
Proof.
  intros a rest f F A. unfold scan_1023. rewrite scan_set_app; [|exact A|exact F|reflexivity].
  rewrite firstn_length, skipn_app. destruct (Nat.le_ge_cases 1023 (length a)) as [L|L].
  - rewrite (Nat.min_l _ _ L). replace (1023 - length a)%nat with O by (symmetry; apply Nat.sub_0_le, L). rewrite skipn_O.
    assert (IN : forall c, In c (skipn 1023 a) -> In c a) by (intros c C; rewrite <- (firstn_skipn 1023 a); apply in_or_app; right; exact C).
    destruct (skipn 1023 a) as [|c t]; cbn [app]; (rewrite scan_offset_bad; [reflexivity|]); [discriminate|]. intros ->. rewrite Forall_forall in F. specialize (F 43 (IN 43 (or_introl eq_refl))). discriminate F.
  - rewrite (Nat.min_r _ _ L), skipn_all, Nat.sub_diag, skipn_O. cbn [app]. rewrite scan_offset_bad; [reflexivity|discriminate].
Qed.
Lemma file_not_named : forall file ds v rest, path_ok file -> hex_of ds v -> scan_named (file ++ str "(+0x" ++ ds ++ [41] ++ rest) = None.
Proof.
  intros file ds v rest P (_ & zs & W & _). unfold scan_named. change (str "(+0x" ++ ds ++ [41] ++ rest) with (40 :: (str "+0x" ++ ds ++ [41] ++ rest)).
  rewrite (file_skipped _ _ P). change (40 :: str "+0x" ++ ds ++ [41] ++ rest) with ([40; 43; 48] ++ ((120 :: ds) ++ 41 :: rest)).
  rewrite scan_set_app; [|discriminate|repeat constructor|reflexivity]. apply (scan_close (120 :: ds) rest pair); [|discriminate].
  apply name_set; (intros [E|E]; [discriminate|]); revert E; apply (digits_no _ _ _ W); reflexivity.
Qed.
Lemma scan_set_split : forall f s a b, scan_set f s = Some (a, b) -> s = a ++ b.
Proof.
  intros f s a b H. unfold scan_set in H. assert (G : forall s, s = fst (span f s) ++ snd (span f s)).
  { clear. induction s as [|c s IH]; [reflexivity|]. cbn. destruct (f c); [|reflexivity]. destruct (span f s) as [x y]. cbn in *. congruence. }
  rewrite (G s). destruct (span f s) as [x y]. cbn. destruct x; [discriminate|]. inversion H. reflexivity.
Qed.
Lemma offset_plus : forall r v, scan_offset r = Some v -> In 43 r.
Proof. intros r v H. destruct r as [|c r]; [discriminate|]. destruct (N.eq_dec c 43) as [->|D]; [left; reflexivity|]. rewrite scan_offset_bad in H by exact D. discriminate. Qed.
Lemma no_plus : forall r, ~ In 43 r -> scan_offset r = None.
Proof. intros r H. destruct (scan_offset r) eqn:E; [|reflexivity]. exfalso. exact (H (offset_plus _ _ E)). Qed.
Lemma unknown_ok : forall file rest, path_ok file -> ~ In 43 rest -> extract (file ++ str "()" ++ rest) = ([], None).
Proof.
  intros file rest P R. assert (Q : ~ In 43 (40 :: 41 :: rest)) by (intros [E|[E|E]]; [discriminate|discriminate|contradiction]).
  unfold extract, scan_named, scan_nameless. change (str "()" ++ rest) with (40 :: 41 :: rest). rewrite (file_skipped _ _ P).
  assert (K : forall f a b, scan_set f (40 :: 41 :: rest) = Some (a, b) -> ~ In 43 b).
  { intros f a b H I. apply Q. rewrite (scan_set_split _ _ _ _ H). apply in_or_app. right. exact I. }
  assert (A : match scan_set (fun c => negb (starts_name c)) (40 :: 41 :: rest) with None => None | Some (_, r) => match scan_1023 (fun c => negb (c =? 41) && negb (c =? 43)) r with None => None | Some (n, r) => option_map (pair n) (scan_offset r) end end = @None (bytes * N)).
  { destruct (scan_set _ _) as [[a b]|] eqn:E; [|reflexivity]. pose proof (K _ _ _ E) as B. destruct (scan_1023 _ b) as [[n r]|] eqn:E2; [|reflexivity].
    rewrite no_plus; [reflexivity|]. intros I. apply B. unfold scan_1023 in E2. destruct (scan_set _ b) as [[x y]|]; [|discriminate]. inversion E2; subst.
    rewrite <- (firstn_skipn (length (firstn 1023 x)) b). apply in_or_app. right. exact I. }
  rewrite A. destruct (scan_set (fun c => negb (c =? 43)) _) as [[a b]|] eqn:E; [|reflexivity]. rewrite no_plus; [reflexivity|]. exact (K _ _ _ E).
Qed.
Lemma bare_ok : forall s, ~ In 40 s -> extract s = ([], None).
Proof.
  intros s H. unfold extract, scan_named, scan_nameless. destruct s as [|c s]; [reflexivity|].
  rewrite <- (app_nil_r (c :: s)), scan_set_app; [reflexivity|discriminate|apply not_in_set, H|exact I].
Qed.
Lemma extract_ok : forall at_ s n line, described at_ s n line -> extract line = (n, option_map (fun st => at_ - st) s) /\ (forall st, s = Some st -> st < at_).
Proof.
  intros at_ s n line D. destruct D as [file n ds start rest P Q L LT X|file n ds start rest P Q L LT X|file ds start rest P LT X|file n rest P Q|file rest P R|s B].
  - split; [|intros st E; inversion E; subst; exact LT]. unfold extract. rewrite (named_ok _ _ _ _ _ P Q X). apply Nat.leb_le in L. rewrite L. reflexivity.
  - split; [|intros st E; inversion E; subst; exact LT]. unfold extract. rewrite (named_ok _ _ _ _ _ P Q X). apply Nat.leb_gt in L. rewrite L.
    rewrite (nameless_ok _ _ _ _ _ P (proj2 (proj2 Q)) X). reflexivity.
  - split; [|intros st E; inversion E; subst; exact LT]. unfold extract. rewrite (file_not_named _ _ _ _ P X).
    change (file ++ str "(+0x" ++ ds ++ [41] ++ rest) with (file ++ [40] ++ [] ++ str "+0x" ++ ds ++ [41] ++ rest). rewrite (nameless_ok _ [] _ _ _ P (fun x => x) X). reflexivity.
  - split; [|discriminate]. unfold extract. change (str "+0)" ++ rest) with (43 :: 48 :: 41 :: rest). rewrite (named_gen _ _ _ P Q), (nameless_gen _ _ _ P (proj2 (proj2 Q))).
    destruct (length n <=? 1023)%nat; reflexivity.
  - split; [apply unknown_ok; assumption|discriminate].
  - split; [apply bare_ok; assumption|discriminate].
Qed.
Lemma extract_start : forall at_ s n s' n' line, described at_ s n line -> described at_ s' n' line -> s = s' /\ n = n'.
Proof.
  intros at_ s n s' n' line A B. apply extract_ok in A, B. destruct A as (A & A'), B as (B & B'). rewrite A in B. inversion B as [[E F]]. split; [|reflexivity].
  destruct s as [x|], s' as [y|]; try discriminate; [|reflexivity]. cbn in F. inversion F. specialize (A' x eq_refl). specialize (B' y eq_refl). f_equal. lia.
Qed.

(* ---- searching for functions ---- *)
Lemma until_null_in : forall fps p, In p (until_null fps) <-> listed p fps.
Proof.
  intros fps p. unfold listed. induction fps as [|x r IH]; cbn [until_null].
  - split; [intros []|]. intros (_ & a & b & E & _). destruct a; discriminate.
  - destruct (N.eqb_spec x 0) as [->|Z].
    + split; [intros []|]. intros (P & a & b & E & I). destruct a as [|y a]; inversion E; subst; [contradiction|]. exfalso. apply I. left. reflexivity.
    + cbn [In]. rewrite IH. split.
      * intros [<-|(P & a & b & -> & I)]; [split; [exact Z|]; exists [], r; split; [reflexivity|intros []]|].
        split; [exact P|]. exists (x :: a), b. split; [reflexivity|]. intros [E|E]; contradiction.
      * intros (P & a & b & E & I). destruct a as [|y a]; inversion E; subst; [left; reflexivity|]. right. split; [exact P|]. exists a, b. split; [reflexivity|]. intros J. apply I. right. exact J.
Qed.
Lemma w64_start : forall at_ st, at_ < 2 ^ 64 -> st < at_ -> w64 (Z.of_N at_ - Z.of_N (at_ - st)) = st.
Proof. intros at_ st A L. unfold w64. rewrite N2Z.inj_sub by lia. replace (Z.of_N at_ - (Z.of_N at_ - Z.of_N st))%Z with (Z.of_N st) by lia. rewrite Z.mod_small; [apply N2Z.id|]. split; [lia|]. change (2 ^ 64)%Z with (Z.of_N (2 ^ 64)). lia. Qed.
Lemma frame_in_ok : forall fps at_ line s n, at_ < 2 ^ 64 -> described at_ s n line -> (frame_in fps (at_, line) = true <-> exists st, s = Some st /\ listed st fps).
Proof.
  intros fps at_ line s n A D. destruct (extract_ok _ _ _ _ D) as (E & LT). unfold frame_in. cbn [fst snd]. rewrite E. destruct s as [st|]; cbn [option_map snd].
  - rewrite (w64_start at_ st A (LT st eq_refl)). rewrite existsb_exists. split.
    + intros (x & I & Q). apply N.eqb_eq in Q. subst x. exists st. split; [reflexivity|]. apply until_null_in, I.
    + intros (x & Q & I). inversion Q; subst. exists x. split; [apply until_null_in, I|apply N.eqb_refl].
  - split; [discriminate|]. intros (x & Q & _). discriminate.
Qed.
Lemma in_ok : forall shift fs fps, understood fs -> (in_fps shift fs fps = true <-> inside shift fs (fun st => listed st fps)).
Proof.
  intros shift fs fps U. unfold understood in U. rewrite Forall_forall in U. unfold in_fps. rewrite existsb_exists. split.
  - intros ((at_ & line) & I & F). assert (J : In (at_, line) fs) by (rewrite <- (firstn_skipn shift fs); apply in_or_app; right; exact I).
    destruct (U _ J) as (A & s & n & D). cbn [fst snd] in A, D. apply (frame_in_ok _ _ _ _ _ A D) in F. destruct F as (st & -> & L).
    apply In_nth_error in I. destruct I as (k & K). exists (shift + k)%nat, at_, line, st, n. split; [lia|]. split; [|split; assumption].
    rewrite <- K. clear. revert fs. induction shift as [|h IH]; intros fs; [reflexivity|]. destruct fs; cbn; [destruct k; reflexivity|apply IH].
  - intros (i & at_ & line & st & n & L & K & D & P). pose proof (U _ (nth_error_In _ _ K)) as (A & _). exists (at_, line). split.
    + apply (nth_error_In _ (i - shift)). rewrite <- K. revert i L K. clear. revert fs. induction shift as [|h IH]; intros fs i L K; [rewrite Nat.sub_0_r; reflexivity|].
      destruct i as [|i]; [lia|]. destruct fs; [destruct i; discriminate|]. cbn [skipn nth_error]. apply (IH fs i); [lia|exact K].
    + apply (frame_in_ok _ _ _ _ _ A D). exists st. split; [reflexivity|exact P].
Qed.

(* ---- the array of exempted functions ---- *)
Lemma hop_fun : forall m p q, hop m p q -> follow_jmp1 m p = q.
Proof.
  intros m p q H. pose proof (follow_hop m p) as G. generalize dependent (follow_jmp1 m p). intros x G.
  destruct H, G; try reflexivity; exfalso; intuition congruence.
Qed.
Lemma stays : forall m k p, hop m p p -> follow_jmp m k p = p.
Proof. intros m k p H. induction k as [|k IH]; [reflexivity|]. cbn. rewrite (hop_fun _ _ _ H). exact IH. Qed.
Lemma chain_follow : forall m n p q, chain m n p q -> forall k, (n <= k)%nat -> follow_jmp m k p = q.
Proof.
  intros m n p q C. induction C as [p H|n p q r H C IH]; intros k K; [apply stays, H|]. destruct k as [|k]; [lia|]. cbn. rewrite (hop_fun _ _ _ H). apply IH. lia.
Qed.
Lemma append_at : forall k a b p, ~ In 0 a -> (length a < k)%nat -> array_append k (a ++ 0 :: b) p = a ++ p :: b.
Proof.
  intros k a. revert k. induction a as [|x a IH]; intros k b p A L; (destruct k as [|k]; [cbn in L; lia|]); cbn [app array_append].
  - reflexivity.
  - destruct (N.eqb_spec x 0) as [->|Z]; [exfalso; apply A; left; reflexivity|]. f_equal. apply IH; [intros I; apply A; right; exact I|cbn in L; lia].
Qed.
Lemma append_full : forall k a b p, ~ In 0 a -> length a = k -> array_append k (a ++ b) p = a ++ b.
Proof.
  intros k a. revert k. induction a as [|x a IH]; intros k b p A L; subst k; [destruct b; reflexivity|]. cbn [app length array_append].
  destruct (N.eqb_spec x 0) as [->|Z]; [exfalso; apply A; left; reflexivity|]. f_equal. apply IH; [intros I; apply A; right; exact I|reflexivity].
Qed.
Lemma exempt_array : forall m ps qs, Forall2 (fun p q => entry_of m p q /\ q <> 0) ps qs -> (length ps <= 4095)%nat -> forall a k, ~ In 0 a -> (length a + length ps <= 4095)%nat -> (length ps <= k)%nat ->
  exists j, fold_left (add_by_fp m) ps (a ++ repeat 0 (S k)) = (a ++ qs) ++ repeat 0 (S j).
Proof.
  intros m ps qs F. induction F as [|p q ps qs (E & Z) F IH]; intros L a k A LA LK.
  - exists k. rewrite app_nil_r. reflexivity.
  - cbn [length] in L, LA, LK. destruct k as [|k]; [lia|]. cbn [fold_left]. unfold add_by_fp at 2. destruct E as (n & N32 & C).
    rewrite (chain_follow _ _ _ _ C 32 N32). change (repeat 0 (S (S k))) with (0 :: repeat 0 (S k)). rewrite append_at; [|exact A|lia].
    change (a ++ q :: repeat 0 (S k)) with (a ++ [q] ++ repeat 0 (S k)). rewrite app_assoc.
    destruct (IH ltac:(lia) (a ++ [q]) k) as (j & J); [intros I; apply in_app_or in I; destruct I as [I|[I|[]]]; [contradiction|congruence]|rewrite app_length; cbn; lia|lia|].
    exists j. rewrite J. rewrite <- (app_assoc a [q] qs). reflexivity.
Qed.
Lemma listed_array : forall qs j p, ~ In 0 qs -> (listed p (qs ++ repeat 0 (S j)) <-> In p qs).
Proof.
  intros qs j p Z. rewrite <- until_null_in. induction qs as [|q qs IH]; [cbn; tauto|]. cbn [app until_null]. destruct (N.eqb_spec q 0) as [->|Q]; [exfalso; apply Z; left; reflexivity|].
  cbn [In]. rewrite IH; [reflexivity|]. intros I. apply Z. right. exact I.
Qed.
Lemma inside_impl : forall shift fs (P Q : N -> Prop), (forall p, P p -> Q p) -> inside shift fs P -> inside shift fs Q.
Proof. intros shift fs P Q H (i & at_ & line & st & n & A & B & C & D). exists i, at_, line, st, n. auto. Qed.
Lemma exempt_ok : forall m ps qs shift fs, Forall2 (fun p q => entry_of m p q /\ q <> 0) ps qs -> (length ps <= 4095)%nat -> understood fs ->
  (in_fps shift fs (fold_left (add_by_fp m) ps no_fps) = true <-> inside shift fs (fun st => In st qs)).
Proof.
  intros m ps qs shift fs F L U. rewrite (in_ok _ _ _ U). destruct (exempt_array m ps qs F L [] 4095 (fun x => x) L L) as (j & J). cbn [app] in J. unfold no_fps. change 4096%nat with (S 4095). rewrite J.
  assert (Z : ~ In 0 qs). { clear - F. induction F as [|p q ps qs (_ & Q) F IH]; [intros []|]. intros [I|I]; [congruence|contradiction]. }
  split; apply inside_impl; intros p; apply listed_array; exact Z.
Qed.
(** the 4096th function is dropped *)
Lemma dropped : forall m ps qs p, Forall2 (fun p q => entry_of m p q /\ q <> 0) ps qs -> length ps = 4095%nat -> fold_left (add_by_fp m) (ps ++ [p]) no_fps = fold_left (add_by_fp m) ps no_fps.
Proof.
  intros m ps qs p F L. rewrite fold_left_app. cbn [fold_left]. destruct (exempt_array m ps qs F (Nat.eq_le_incl _ _ L) [] 4095 (fun x => x)) as (j & J); [cbn [length]; rewrite L; apply le_n|rewrite L; apply le_n|].
  cbn [app] in J. unfold no_fps. change 4096%nat with (S 4095). rewrite J. unfold add_by_fp at 1. apply append_full.
  - clear - F. induction F as [|a b ps qs (_ & Q) F IH]; [intros []|]. intros [I|I]; [congruence|contradiction].
  - rewrite <- L. clear - F. induction F; cbn; congruence.
Qed.

(* ---- comparing ---- *)
Lemma same_from_ok : forall k i a b, same_from k i a b = true <-> forall j, (i <= j < i + k)%nat -> nth j a 0 = nth j b 0.
Proof.
  induction k as [|k IH]; intros i a b; cbn [same_from]; [split; [intros _ j J; lia|reflexivity]|].
  rewrite andb_true_iff, N.eqb_eq, IH. split.
  - intros (A & B) j J. destruct (Nat.eq_dec j i) as [->|D]; [exact A|]. apply B. lia.
  - intros H. split; [apply H; lia|]. intros j J. apply H. lia.
Qed.
Lemma same_ok : forall a b, (b_count a <= length (b_frames a))%nat -> (b_count b <= length (b_frames b))%nat ->
  (same a b = true <-> firstn (b_count a) (b_frames a) = firstn (b_count b) (b_frames b)).
Proof.
  intros a b A B. unfold same. rewrite andb_true_iff, Nat.eqb_eq, same_from_ok. split.
  - intros (C & H). rewrite <- C. rewrite <- C in B. destruct a as [ca fa], b as [cb fb]. cbn in *. clear C cb. revert fa fb A B H. induction ca as [|k IH]; intros fa fb A B H; [reflexivity|].
    destruct fa as [|x fa], fb as [|y fb]; cbn in A, B; try lia. cbn [firstn]. f_equal; [apply (H 0%nat); lia|]. apply IH; [lia|lia|]. intros j J. apply (H (S j)). lia.
  - intros E. assert (C : b_count a = b_count b). { apply (f_equal (@length N)) in E. rewrite !firstn_length_le in E by assumption. exact E. }
    split; [exact C|]. intros j J. rewrite <- C in E. clear - E J. destruct a as [ca fa], b as [cb fb]. cbn in *. revert fa fb j E J. induction ca as [|k IH]; intros fa fb j E J; [lia|].
    destruct fa as [|x fa], fb as [|y fb]; cbn [firstn] in E; try discriminate; [reflexivity|]. inversion E. destruct j as [|j]; [reflexivity|]. cbn [nth]. apply IH; [assumption|lia].
Qed.
