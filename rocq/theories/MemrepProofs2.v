(** Lemmas on the reports of memory failures, exceptions and functions not found: the reports. *)
From Coq Require Import List NArith ZArith Bool Arith Lia.
From Verif Require Import Base LineModel LineSpec JunitModel JunitSpec JunitProofs DumpModel DumpSpec DumpProofs DumpProofs2 MessageModel MessageSpec MessageProofs MessageProofs2 MemrepModel MemrepSpec MemrepProofs.
Import ListNotations.
Local Open Scope N_scope.

Lemma leaves_as : forall st l o p, leaves st l o -> o = p -> leaves st l p.
Proof. intros st l o p L <-. exact L. Qed.
Ltac side := first [assumption | lit | apply dec_no27 | apply percent_d_no27 | reflexivity | (apply no27_app; side)].
Ltac one := first [eassumption | (apply lgray; side) | (apply lbrush; [reflexivity|side]) | (apply lprintf; [reflexivity|side]) | (apply lprintsred; side) | (apply lprints; side) | (apply lw; side) | (apply leaves_nil) | (apply lexplain; assumption)].
Ltac lines := lazymatch goal with
  | |- leaves _ (printl _) _ => apply lnl; lines
  | |- leaves _ (_ ++ _) _ => first [one | apply leaves_app; lines]
  | |- _ => one
  end.
Ltac flat := unfold letters; rewrite ?map_app, <- ?app_assoc; reflexivity.

Lemma leak_report : forall verbose ptr size sizes place filine allocate, an_address ptr -> ~ In 27 place -> ~ In 27 filine -> calm_frames (stacks allocate) -> Forall (fun p => 1 <= snd p) sizes ->
  exists o, leaves [] (print_leak verbose ptr size sizes place filine allocate) o /\ shows_leak (verbose <=? 3) ptr size sizes place filine (stacks allocate) o.
Proof.
  intros verbose ptr size sizes place filine allocate A P F C Z. destruct (address_ok ptr A) as (A1 & _ & A3). destruct (place_ok filine F) as (z & Lz & Sz). destruct (trace_ok 3 allocate) as (tr & Lt & St); [lia|exact C|].
  destruct (sizes_ok (verbose <=? 3) sizes Z) as (l & Ll & Sl & Cl). unfold print_leak. destruct (leak_sizes (verbose <=? 3) (length sizes) 0 sizes) as (sl, c). cbn [fst snd] in *.
  set (b := if 1 <? c then letters darkgray (str "[") ++ l ++ letters darkgray (str "] ") else []).
  assert (Lb : leaves [] (if 1 <? c then gray (str "[") ++ sl ++ gray (str "] ") else []) b). { unfold b. destruct (1 <? c); lines. }
  eexists. split; [lines|]. exists (pointer_text ptr), (dec size), b, z, tr. split; [exact A1|]. split; [apply dec_ok|]. split; [exact Sz|]. split; [exact St|].
  split; [intros K; unfold b; destruct (N.ltb_spec 1 c) as [H|H]; [apply Cl in H; lia|reflexivity]|].
  split; [intros K; unfold b; destruct (N.ltb_spec 1 c) as [H|H]; [exists l; auto|apply Cl in K; lia]|]. flat.
Qed.
Lemma double_free_report : forall ptr allocate release again, an_address ptr -> calm_frames (stacks allocate) -> calm_frames (stacks release) -> calm_frames (stacks again) ->
  exists o, leaves [] (print_double_free ptr allocate release again) o /\ shows_double_free ptr (stacks allocate) (stacks release) (stacks again) o.
Proof.
  intros ptr allocate release again A Ca Cr Cg. destruct (address_ok ptr A) as (A1 & A2 & A3). destruct (trace_ok 3 allocate) as (a & La & Sa); [lia|exact Ca|]. destruct (trace_ok 3 release) as (r & Lr & Sr); [lia|exact Cr|].
  destruct (trace_ok 2 again) as (g & Lg & Sg); [lia|exact Cg|]. unfold print_double_free. rewrite A2. eexists. split; [lines|].
  exists (pointer_text ptr), a, r, g. split; [exact A1|]. split; [exact Sa|]. split; [exact Sr|]. split; [exact Sg|]. flat.
Qed.
Lemma asymmetric_report : forall ptr who_allocate who_release allocate release, an_address ptr -> ~ In 27 who_allocate -> ~ In 27 who_release -> calm_frames (stacks allocate) -> calm_frames (stacks release) ->
  exists o, leaves [] (print_asymmetric ptr who_allocate who_release allocate release) o /\ shows_asymmetric ptr who_allocate who_release (count allocate <> 0%nat) (stacks allocate) (stacks release) o.
Proof.
  intros ptr wa wr allocate release A Wa Wr Ca Cr. destruct (address_ok ptr A) as (A1 & A2 & A3). destruct (trace_ok 3 allocate) as (a & La & Sa); [lia|exact Ca|]. destruct (trace_ok 2 release) as (r & Lr & Sr); [lia|exact Cr|].
  unfold print_asymmetric. rewrite A2.
  set (b := if (0 <? count allocate)%nat then letters [] (str "  which allocate at backtrace:" ++ nl) ++ a else []).
  assert (Lb : leaves [] (if (0 <? count allocate)%nat then prints [] (str "  which allocate at backtrace:" ++ [10]) ++ print_trace 3 allocate else []) b). { unfold b. destruct (0 <? count allocate)%nat; lines. }
  eexists. split; [lines|]. exists (pointer_text ptr), b, r. split; [exact A1|]. split; [exact Sr|].
  split; [intros K; unfold b; destruct (Nat.ltb_spec 0 (count allocate)); [exfalso; apply K; lia|reflexivity]|].
  split; [intros K; unfold b; destruct (Nat.ltb_spec 0 (count allocate)); [exists a; auto|lia]|]. flat.
Qed.
Lemma spot_ok : forall spot, Forall (fun b => b < 256) spot -> exists xs, Forall2 byte_hex spot xs /\
  leaves [] (concat (map (fun b => printf_words (str "bold,red") (hex_fixed 2 b ++ str " ")) spot)) (letters red (concat (map (fun x => x ++ str " ") xs))).
Proof.
  intros spot F. exists (map (hex_fixed 2) spot). induction F as [|b spot B F (IH1 & IH2)]; [split; [constructor|apply leaves_nil]|]. destruct (hex_fixed_ok 2 b B) as (H & L & _).
  cbn [map concat]. split; [constructor; [split; assumption|exact IH1]|]. rewrite letters_app. apply leaves_app; [|exact IH2]. apply lprintf; [reflexivity|]. apply no27_app; [exact (Hex_no27 _ _ H)|lit].
Qed.
Lemma beside_offset : forall ptr size violate z word, beside ptr size violate z word -> int_range z -> overflow_offset ptr size violate = z /\ word = (if (0 <=? z)%Z then str "overflow" else str "underflow").
Proof.
  intros ptr size violate z word B R. unfold overflow_offset. destruct B as [B|B].
  - split; [|destruct (Z.leb_spec 0 (Z.of_N (violate - (ptr + size)))); [reflexivity|lia]]. destruct (N.ltb_spec ptr violate) as [L|L].
    + replace (Z.of_N violate - (Z.of_N ptr + Z.of_N size))%Z with (Z.of_N (violate - (ptr + size))) by lia. apply s64_small, R.
    + replace (Z.of_N violate - Z.of_N ptr)%Z with (Z.of_N (violate - (ptr + size))) by lia. apply s64_small, R.
  - split; [|destruct (Z.leb_spec 0 (- Z.of_N (ptr - violate))); [lia|reflexivity]]. destruct (N.ltb_spec ptr violate) as [L|L]; [lia|].
    replace (Z.of_N violate - Z.of_N ptr)%Z with (- Z.of_N (ptr - violate))%Z by lia. apply s64_small, R.
Qed.
Lemma overflow_report : forall ptr size violate z word action spot allocate trample, an_address ptr -> an_address violate -> beside ptr size violate z word -> int_range z ->
  ~ In 27 action -> Forall (fun b => b < 256) spot -> calm_frames (stacks allocate) -> calm_frames (stacks trample) ->
  exists o, leaves [] (print_overflow ptr size violate action spot allocate trample) o /\ shows_overflow ptr violate z word action spot (count trample <> 0%nat) (stacks allocate) (stacks trample) o.
Proof.
  intros ptr size violate z word action spot allocate trample A V B R Na Fs Ca Ct. destruct (address_ok ptr A) as (A1 & _ & A3). destruct (address_ok violate V) as (V1 & _ & V3).
  destruct (trace_ok 3 allocate) as (a & La & Sa); [lia|exact Ca|]. destruct (trace_ok 3 trample) as (t & Lt & St); [lia|exact Ct|]. destruct (spot_ok spot Fs) as (xs & Fx & Lx).
  destruct (beside_offset _ _ _ _ _ B R) as (E & ->). unfold print_overflow. rewrite E.
  set (word := if (0 <=? z)%Z then str "overflow" else str "underflow"). assert (Nw : ~ In 27 word) by (unfold word; destruct (0 <=? z)%Z; lit).
  set (at_ := if (0 <? count trample)%nat then str " at backtrace:" else []). assert (Nt : ~ In 27 at_) by (unfold at_; destruct (0 <? count trample)%nat; lit).
  set (b := if (0 <? count trample)%nat then t else []). assert (Lb : leaves [] (if (0 <? count trample)%nat then print_trace 3 trample else []) b) by (unfold b; destruct (0 <? count trample)%nat; lines).
  change (locate []) with (@nil bytes). eexists. split; [lines|].
  exists (pointer_text ptr), (percent_d z), (pointer_text violate), xs, a, (letters [] at_ ++ letters [] nl ++ b). split; [exact A1|]. split; [apply signed_ok, R|]. split; [exact V1|]. split; [exact Fx|]. split; [exact Sa|].
  split; [intros K; unfold at_, b; destruct (Nat.ltb_spec 0 (count trample)); [exfalso; apply K; lia|reflexivity]|].
  split; [intros K; unfold at_, b; destruct (Nat.ltb_spec 0 (count trample)); [exists t; split; [exact St|]; flat|lia]|]. flat.
Qed.
Lemma use_after_free_report : forall ptr violate action allocate release use, an_address ptr -> an_address violate -> int_range (Z.of_N violate - Z.of_N ptr) ->
  ~ In 27 action -> calm_frames (stacks allocate) -> calm_frames (stacks release) -> calm_frames (stacks use) ->
  exists o, leaves [] (print_use_after_free ptr violate action allocate release use) o /\ shows_use_after_free ptr violate (Z.of_N violate - Z.of_N ptr) action (stacks allocate) (stacks release) (stacks use) o.
Proof.
  intros ptr violate action allocate release use A V R Na Ca Cr Cu. destruct (address_ok ptr A) as (A1 & _ & A3). destruct (address_ok violate V) as (V1 & _ & V3).
  destruct (trace_ok 3 allocate) as (a & La & Sa); [lia|exact Ca|]. destruct (trace_ok 3 release) as (r & Lr & Sr); [lia|exact Cr|]. destruct (trace_ok 2 use) as (u & Lu & Su); [lia|exact Cu|].
  unfold print_use_after_free. rewrite s64_small by exact R. eexists. split; [lines|].
  eexists _, _, _, a, r, u. split; [exact A1|]. split; [apply signed_ok, R|]. split; [exact V1|]. split; [exact Sa|]. split; [exact Sr|]. split; [exact Su|]. flat.
Qed.
Lemma exception_report : forall type explain filine thrown, ~ In 27 type -> closed explain -> ~ In 27 filine -> calm_frames (stacks thrown) ->
  exists o, leaves [] (print_exception type explain filine thrown) o /\ shows_exception type explain filine (stacks thrown) o.
Proof.
  intros type explain filine thrown Nt Ce F Ct. destruct (place_ok filine F) as (z & Lz & Sz). destruct (trace_ok 3 thrown) as (t & Lt & St); [lia|exact Ct|]. pose proof (lexplain _ Ce) as Le.
  unfold print_exception. eexists. split; [lines|]. exists z, t. split; [exact Sz|]. split; [exact St|]. flat.
Qed.
Lemma candidates_ok : forall cs i, calm_frames cs -> exists o, leaves [] (print_candidates i cs) o /\ shows_candidates (N.of_nat i) cs o.
Proof.
  induction cs as [|c cs IH]; intros i C; [exists []; split; [apply leaves_nil|constructor]|]. inversion C as [|? ? Cc Cs]; subst. destruct (IH (S i) Cs) as (o & L & S1). cbn [print_candidates].
  exists (letters [] (str "  ") ++ letters darkgray (dec (N.of_nat i) ++ str ". ") ++ letters yellow c ++ letters [] nl ++ o). split.
  - eapply leaves_as; [apply leaves_app; [apply lnl; apply leaves_app; [one|apply leaves_app; [apply lbrush2; [reflexivity|side|side]|one]]|exact L]|]. flat.
  - constructor; [apply dec_ok|]. rewrite Nnat.Nat2N.inj_succ in S1. rewrite N.add_1_r. exact S1.
Qed.
Lemma symbol_report : forall symbol candidates explain, ~ In 27 symbol -> calm_frames candidates -> closed explain -> proper explain ->
  exists l o, print_symbol symbol candidates explain = Some l /\ leaves [] l o /\ shows_symbol symbol candidates explain o.
Proof.
  intros symbol candidates explain Ns Cc Ce Pe. destruct (width_void _ Pe) as (w & E & W). destruct (candidates_ok candidates 0 Cc) as (c & Lc & Sc). pose proof (lexplain _ Ce) as Le.
  unfold print_symbol. rewrite E. set (t := match candidates with [] => str " Not found " | _ => str " Find multiple " end). assert (Nt : ~ In 27 t) by (unfold t; destruct candidates; lit).
  set (x := if (w =? 0)%nat then [] else ink [] explain ++ letters [] nl). assert (Lx : leaves [] (if (w =? 0)%nat then [] else printl explain) x) by (unfold x; destruct (w =? 0)%nat; [apply leaves_nil|apply lnl, Le]).
  eexists _, _. split; [reflexivity|]. split; [lines|]. exists t, c, x. split; [intros ->; reflexivity|]. split; [unfold t; destruct candidates; [congruence|reflexivity]|]. split; [exact Sc|].
  split; [intros V; apply W in V; unfold x; rewrite V; reflexivity|]. split; [intros V; unfold x; destruct (Nat.eqb_spec w 0) as [Z|Z]; [exfalso; apply V, W, Z|reflexivity]|]. flat.
Qed.
(** the bytes in red *)
Definition reds (o : list (styles * byte)) : bytes := map snd (filter (fun p => match fst p with [_; _] => true | _ => false end) o).
Lemma reds_app : forall a b, reds (a ++ b) = reds a ++ reds b.
Proof. intros. unfold reds. rewrite filter_app, map_app. reflexivity. Qed.
Lemma reds_none : forall w, reds (letters [] w) = [].
Proof. induction w as [|c w IH]; [reflexivity|exact IH]. Qed.
Lemma reds_gray : forall w, reds (letters darkgray w) = [].
Proof. induction w as [|c w IH]; [reflexivity|exact IH]. Qed.
Lemma reds_red : forall w, reds (letters red w) = w.
Proof. induction w as [|c w IH]; [reflexivity|]. cbn. f_equal. exact IH. Qed.
Lemma far_refuted : exists ptr size violate z, an_address ptr /\ an_address violate /\ beside ptr size violate z (str "overflow") /\
  ~ shows_overflow ptr violate z (str "overflow") (str "read") [] False [] [] (ink [] (print_overflow ptr size violate (str "read") [] (mktrace 0 []) (mktrace 0 []))).
Proof.
  exists 1, 8, (9 + 2 ^ 32), (2 ^ 32)%Z. split; [split; reflexivity|]. split; [split; reflexivity|]. split; [apply (B_behind 1 8 (9 + 2 ^ 32)); lia|].
  intros (t & s & v & xs & a & b & _ & (e & Hs & ->) & _ & Fx & Ta & Kb & _ & E). inversion Fx; subst xs. inversion Ta; subst a.
  rewrite (Kb (fun f => f)) in E. apply (f_equal reds) in E. rewrite !reds_app, !reds_none, !reds_gray, !reds_red in E. rewrite !app_nil_r in E. cbn [app] in E.
  change (reds (ink [] _)) with (str "+0" ++ str "read") in E. change ((2 ^ 32 <? 0)%Z) with false in E. cbv iota in E. rewrite <- ?app_assoc in E. cbn [concat map app] in E. rewrite ?app_nil_r in E.
  change (str "+0" ++ str "read") with (str "+" ++ str "0" ++ str "read") in E. apply app_inv_head in E. apply app_inv_tail in E. subst e. destruct Hs as (_ & V & _). vm_compute in V. discriminate V.
Qed.

(** the same of what is printed *)
Lemma of_leaves : forall (P : list (styles * byte) -> Prop) l, (exists o, leaves [] l o /\ P o) -> closed l /\ P (ink [] l).
Proof. intros P l (o & (<- & C) & H). split; [exact C|exact H]. Qed.
Lemma leak_shown : forall verbose ptr size sizes place filine allocate, an_address ptr -> ~ In 27 place -> ~ In 27 filine -> calm_frames (stacks allocate) -> Forall (fun p => 1 <= snd p) sizes ->
  closed (print_leak verbose ptr size sizes place filine allocate) /\ shows_leak (verbose <=? 3) ptr size sizes place filine (stacks allocate) (ink [] (print_leak verbose ptr size sizes place filine allocate)).
Proof. intros. apply of_leaves. apply leak_report; assumption. Qed.
Lemma double_free_shown : forall ptr allocate release again, an_address ptr -> calm_frames (stacks allocate) -> calm_frames (stacks release) -> calm_frames (stacks again) ->
  closed (print_double_free ptr allocate release again) /\ shows_double_free ptr (stacks allocate) (stacks release) (stacks again) (ink [] (print_double_free ptr allocate release again)).
Proof. intros. apply of_leaves. apply double_free_report; assumption. Qed.
Lemma asymmetric_shown : forall ptr who_allocate who_release allocate release, an_address ptr -> ~ In 27 who_allocate -> ~ In 27 who_release -> calm_frames (stacks allocate) -> calm_frames (stacks release) ->
  closed (print_asymmetric ptr who_allocate who_release allocate release) /\ shows_asymmetric ptr who_allocate who_release (count allocate <> 0%nat) (stacks allocate) (stacks release) (ink [] (print_asymmetric ptr who_allocate who_release allocate release)).
Proof. intros. apply of_leaves. apply asymmetric_report; assumption. Qed.
Lemma overflow_shown : forall ptr size violate z word action spot allocate trample, an_address ptr -> an_address violate -> beside ptr size violate z word -> int_range z ->
  ~ In 27 action -> Forall (fun b => b < 256) spot -> calm_frames (stacks allocate) -> calm_frames (stacks trample) ->
  closed (print_overflow ptr size violate action spot allocate trample) /\ shows_overflow ptr violate z word action spot (count trample <> 0%nat) (stacks allocate) (stacks trample) (ink [] (print_overflow ptr size violate action spot allocate trample)).
Proof. intros. apply of_leaves. apply overflow_report; assumption. Qed.
Lemma use_after_free_shown : forall ptr violate action allocate release use, an_address ptr -> an_address violate -> int_range (Z.of_N violate - Z.of_N ptr) ->
  ~ In 27 action -> calm_frames (stacks allocate) -> calm_frames (stacks release) -> calm_frames (stacks use) ->
  closed (print_use_after_free ptr violate action allocate release use) /\ shows_use_after_free ptr violate (Z.of_N violate - Z.of_N ptr) action (stacks allocate) (stacks release) (stacks use) (ink [] (print_use_after_free ptr violate action allocate release use)).
Proof. intros. apply of_leaves. apply use_after_free_report; assumption. Qed.
Lemma exception_shown : forall type explain filine thrown, ~ In 27 type -> closed explain -> ~ In 27 filine -> calm_frames (stacks thrown) ->
  closed (print_exception type explain filine thrown) /\ shows_exception type explain filine (stacks thrown) (ink [] (print_exception type explain filine thrown)).
Proof. intros. apply of_leaves. apply exception_report; assumption. Qed.
Lemma symbol_shown : forall symbol candidates explain, ~ In 27 symbol -> calm_frames candidates -> closed explain -> proper explain ->
  exists l, print_symbol symbol candidates explain = Some l /\ closed l /\ shows_symbol symbol candidates explain (ink [] l).
Proof. intros symbol candidates explain A B C D. destruct (symbol_report symbol candidates explain A B C D) as (l & o & E & (<- & L) & S1). exists l. auto. Qed.
