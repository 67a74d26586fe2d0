(** Proofs about addresses of hijacked sockets (C96). *)
From Coq Require Import List NArith ZArith Bool Arith Lia.
From Verif Require Import Base JunitModel JunitSpec JunitProofs SockModel IportModel IportSpec.
Import ListNotations.
Local Open Scope N_scope.

Lemma htons_small : forall x, x < 65536 -> htons x < 65536 /\ htons (htons x) = x /\ in_memory (htons x) = [x / 256; x mod 256].
Proof.
  intros x H. unfold htons, in_memory. assert (A : x / 256 < 256) by (apply N.div_lt_upper_bound; lia). assert (B : x mod 256 < 256) by (apply N.mod_lt; lia).
  rewrite (N.mod_small (x / 256) 256 A). set (q := x / 256) in *. set (r := x mod 256) in *.
  assert (E : x = 256 * q + r) by (apply N.div_mod'). 
  assert (M : (r * 256 + q) mod 256 = q) by (rewrite N.add_comm, N.mod_add by lia; apply N.mod_small, A).
  assert (D : (r * 256 + q) / 256 = r) by (rewrite N.div_add_l by lia; rewrite (N.div_small q 256 A); lia).
  rewrite M, D, (N.mod_small r 256 B). split; [lia|]. split; [lia|reflexivity].
Qed.
Lemma memory_port : forall x port, x < 65536 -> port < 65536 -> in_memory x = [port / 256; port mod 256] -> x = htons port.
Proof.
  intros x port X P E. unfold in_memory in E. injection E as E1 E2. unfold htons. rewrite (N.div_mod' x 256), E1, E2.
  rewrite (N.mod_small (port / 256) 256) by (apply N.div_lt_upper_bound; lia). lia.
Qed.
Lemma at_colon_ok : forall x d, ~ In 58 x -> at_colon (x ++ [58] ++ d) = (x, Some d) /\ at_colon x = (x, None).
Proof.
  induction x as [|c x IH]; intros d H; [split; reflexivity|]. cbn [app at_colon]. destruct (N.eqb_spec c 58) as [->|D]; [exfalso; apply H; left; reflexivity|].
  destruct (IH d) as (A & B); [intros K; apply H; right; exact K|]. cbn [app] in A. rewrite A, B. split; reflexivity.
Qed.
Lemma leading_fold : forall d n, Forall (fun c => 48 <= c <= 57) d -> leading n d = fold_left (fun a c => 10 * a + (c - 48)) d n.
Proof.
  induction d as [|c d IH]; intros n F; [reflexivity|]. inversion F as [|? ? C F']; subst. cbn [leading fold_left]. replace ((48 <=? c) && (c <=? 57)) with true; [apply IH, F'|].
  symmetry. apply andb_true_intro. split; apply N.leb_le; lia.
Qed.
Lemma decimal_no : forall d n c, decimal d n -> ~ (48 <= c <= 57) -> ~ In c d.
Proof. intros d n c (F & _) H K. rewrite Forall_forall in F. apply H, F, K. Qed.
Lemma dotted_no : forall ip t c, dotted ip t -> ~ (48 <= c <= 57) -> c <> 46 -> ~ In c t.
Proof.
  intros ip t c (a & b & e & d & ta & tb & tc & td & _ & _ & _ & _ & _ & A & B & C & D & ->) H N K.
  repeat (rewrite in_app_iff in K). cbn [In] in K.
  destruct K as [K|[[K|[]]|[K|[[K|[]]|[K|[[K|[]]|K]]]]]]; try (symmetry in K; contradiction); revert K; eapply decimal_no; eassumption.
Qed.
Lemma decimal_low : forall d n, decimal d n -> (n < 10 -> length d = 1%nat) /\ (n < 100000 -> (length d <= 5)%nat).
Proof.
  intros d n (F & V & NE & Z).
  assert (G : forall d acc k, Forall (fun c => 48 <= c <= 57) d -> 10 ^ k <= acc -> 10 ^ (k + N.of_nat (length d)) <= fold_left (fun a c => 10 * a + (c - 48)) d acc).
  { clear. induction d as [|c d IH]; intros acc k F H; [cbn; rewrite N.add_0_r; exact H|]. inversion F; subst. cbn [fold_left length]. replace (k + N.of_nat (S (length d))) with (N.succ k + N.of_nat (length d)) by lia. apply IH; [assumption|]. rewrite N.pow_succ_r'. lia. }
  destruct d as [|c d]; [contradiction|]. inversion F as [|? ? C F']; subst. cbn [hd] in Z. destruct (N.eq_dec c 48) as [->|D].
  - rewrite (Z eq_refl). cbn [length]. split; lia.
  - cbn [fold_left] in *. assert (P : 10 ^ 0 <= 10 * 0 + (c - 48)) by (cbn; lia). specialize (G d _ 0 F' P). rewrite N.add_0_l in G. cbn [length]. split; intros L.
    + destruct d as [|c' d]; [reflexivity|exfalso]. cbn [length] in G. assert (10 ^ 1 <= 10 ^ N.of_nat (S (length d))) by (apply N.pow_le_mono_r; lia). change (10 ^ 1) with 10 in *. lia.
    + destruct (le_lt_dec (length d) 4) as [Y|Y]; [lia|exfalso]. assert (10 ^ 5 <= 10 ^ N.of_nat (length d)) by (apply N.pow_le_mono_r; lia). change (10 ^ 5) with 100000 in *. lia.
Qed.
Lemma dotted_short : forall ip t, dotted ip t -> (length t <= 23)%nat.
Proof.
  intros ip t (a & b & c & d & ta & tb & tc & td & _ & A & B & C & D & DA & DB & DC & DD & ->).
  rewrite !app_length. cbn [length]. pose proof (proj2 (decimal_low _ _ DA)). pose proof (proj2 (decimal_low _ _ DB)). pose proof (proj2 (decimal_low _ _ DC)). pose proof (proj2 (decimal_low _ _ DD)). lia.
Qed.
Lemma decimal_unique : forall d e n, decimal d n -> decimal e n -> d = e.
Proof.
  intros d e n (F & V & NE & Z) (F' & V' & NE' & Z').
  assert (G : forall d acc k, Forall (fun c => 48 <= c <= 57) d -> 10 ^ k <= acc -> 10 ^ (k + N.of_nat (length d)) <= fold_left (fun a c => 10 * a + (c - 48)) d acc).
  { clear. induction d as [|c d IH]; intros acc k F H; [cbn; rewrite N.add_0_r; exact H|]. inversion F; subst. cbn [fold_left length]. replace (k + N.of_nat (S (length d))) with (N.succ k + N.of_nat (length d)) by lia. apply IH; [assumption|]. rewrite N.pow_succ_r'. lia. }
  assert (U : forall d acc k, Forall (fun c => 48 <= c <= 57) d -> acc < 10 ^ k -> fold_left (fun a c => 10 * a + (c - 48)) d acc < 10 ^ (k + N.of_nat (length d))).
  { clear. induction d as [|c d IH]; intros acc k F H; [cbn; rewrite N.add_0_r; exact H|]. inversion F; subst. cbn [fold_left length]. replace (k + N.of_nat (S (length d))) with (N.succ k + N.of_nat (length d)) by lia. apply IH; [assumption|]. rewrite N.pow_succ_r'. lia. }
  assert (E : forall d e acc acc', Forall (fun c => 48 <= c <= 57) d -> Forall (fun c => 48 <= c <= 57) e -> length d = length e -> fold_left (fun a c => 10 * a + (c - 48)) d acc = fold_left (fun a c => 10 * a + (c - 48)) e acc' -> d = e /\ acc = acc').
  { clear. induction d as [|c d IH]; intros [|c' e] acc acc' F F' L Q; try discriminate; [split; [reflexivity|exact Q]|]. inversion F; inversion F'; subst. injection L as L. cbn [fold_left] in Q. destruct (IH e _ _ H2 H6 L Q) as (-> & H). assert (acc = acc' /\ c = c') as (-> & ->) by lia. split; reflexivity. }
  assert (S1 : forall d e, Forall (fun c => 48 <= c <= 57) d -> Forall (fun c => 48 <= c <= 57) e -> (hd 48 d = 48 -> d = [48]) -> d <> [] -> e <> [] -> fold_left (fun a c => 10 * a + (c - 48)) d 0 = fold_left (fun a c => 10 * a + (c - 48)) e 0 -> (length d <= length e)%nat).
  { intros d0 e0 A B H0 N0 N1 Q. destruct d0 as [|c d0]; [contradiction|]. cbn [hd] in H0. destruct (N.eq_dec c 48) as [->|D].
    - rewrite (H0 eq_refl). destruct e0; [contradiction|cbn; lia].
    - destruct (le_lt_dec (length (c :: d0)) (length e0)) as [Y|Y]; [exact Y|exfalso]. inversion A; subst.
      specialize (U e0 0 0 B). cbn [fold_left length] in *. assert (P : 10 ^ 0 <= 10 * 0 + (c - 48)) by (cbn; lia). remember (10 * 0 + (c - 48)) as acc eqn:ACC. clear ACC. specialize (G d0 _ 0 H3 P). rewrite N.add_0_l in G, U.
      assert (L1 : fold_left (fun a c => 10 * a + (c - 48)) e0 0 < 10 ^ N.of_nat (length e0)) by (apply U; cbn; lia).
      assert (10 ^ N.of_nat (length e0) <= 10 ^ N.of_nat (length d0)) by (apply N.pow_le_mono_r; lia). lia. }
  rewrite <- V' in V. apply (E d e 0 0 F F'); [|exact V]. apply Nat.le_antisymm; apply S1; auto.
Qed.

Section lib.
Variables (pton : bytes -> option (list N)) (ntop : list N -> bytes).
Hypothesis (RD : reads_dotted pton) (WD : writes_dotted ntop).
Lemma parsed : forall ip port t a, address ip port t -> exists a', iport_parse pton t a = Some a' /\ stands_for a' ip port.
Proof using RD.
  intros ip port t a (x & d & X & D & P & ->). destruct (at_colon_ok x d) as (E & _); [eapply dotted_no; [exact X|lia|lia]|].
  unfold iport_parse. replace (1023 <? length (x ++ [58%N] ++ d))%nat with false.
  - rewrite E. rewrite (proj2 (RD x ip) X). rewrite (leading_fold d 0) by apply D. replace (fold_left _ d 0) with port by (symmetry; apply D).
    replace (2147483647 <? port) with false by (symmetry; apply N.ltb_ge; lia). rewrite (N.mod_small port 65536 P). eexists. split; [reflexivity|].
    destruct (htons_small port P) as (A & _ & C). split; [reflexivity|]. split; [reflexivity|]. split; [exact A|exact C].
  - symmetry. apply Nat.ltb_ge. rewrite !app_length. cbn [length]. pose proof (dotted_short ip x X). pose proof (proj2 (decimal_low d port D)). lia.
Qed.
Lemma without_port : forall ip t a, dotted ip t -> exists a', iport_parse pton t a = Some a' /\ stands_for a' ip 0.
Proof using RD.
  intros ip t a X. destruct (at_colon_ok t []) as (_ & E); [eapply dotted_no; [exact X|lia|lia]|]. unfold iport_parse. replace (1023 <? length t)%nat with false.
  - rewrite E, (proj2 (RD t ip) X). eexists. split; [reflexivity|]. repeat split; cbn; lia.
  - symmetry. apply Nat.ltb_ge. pose proof (dotted_short ip t X). lia.
Qed.
Lemma written : forall a ip port, quad ip -> port < 65536 -> stands_for a ip port -> exists t, iport_tostring ntop a = Some t /\ address ip port t.
Proof using WD.
  intros a ip port (q1 & q2 & q3 & q4 & -> & A & B & C & D) P (_ & S1 & S2 & S3). unfold iport_tostring. rewrite S1. eexists. split; [reflexivity|].
  rewrite (memory_port _ _ S2 P S3). destruct (htons_small port P) as (_ & -> & _). exists (ntop [q1; q2; q3; q4]), (dec port). split; [apply WD; assumption|]. split; [apply dec_ok|]. split; [exact P|reflexivity].
Qed.
Lemma dotted_quad : forall ip t, dotted ip t -> quad ip.
Proof using. intros ip t (a & b & c & d & ta & tb & tc & td & -> & A & B & C & D & _). exists a, b, c, d. repeat split; assumption. Qed.
Lemma address_quad : forall ip port t, address ip port t -> quad ip /\ port < 65536.
Proof using. intros ip port t (x & d & X & D & P & _). split; [eapply dotted_quad; exact X|exact P]. Qed.
Lemma dotted_unique : forall ip t u, dotted ip t -> dotted ip u -> t = u.
Proof using.
  intros ip t u (a & b & c & d & ta & tb & tc & td & -> & _ & _ & _ & _ & A & B & C & D & ->) (a' & b' & c' & d' & ua & ub & uc & ud & E & _ & _ & _ & _ & A' & B' & C' & D' & ->).
  injection E as <- <- <- <-. rewrite (decimal_unique _ _ _ A A'), (decimal_unique _ _ _ B B'), (decimal_unique _ _ _ C C'), (decimal_unique _ _ _ D D'). reflexivity.
Qed.
Lemma address_unique : forall ip port t u, address ip port t -> address ip port u -> t = u.
Proof using. intros ip port t u (x & d & X & D & _ & ->) (y & e & Y & E & _ & ->). rewrite (dotted_unique _ _ _ X Y), (decimal_unique _ _ _ D E). reflexivity. Qed.
Lemma round_trip : forall a b ip port t, quad ip -> port < 65536 -> stands_for a ip port -> iport_tostring ntop a = Some t -> exists a', iport_parse pton t b = Some a' /\ sin_addr a' = sin_addr a /\ sin_port a' = sin_port a.
Proof using RD WD.
  intros a b ip port t Q P S0 E. destruct (written a ip port Q P S0) as (t' & E' & A). rewrite E in E'. injection E' as <-.
  destruct (parsed ip port t b A) as (a' & H & S1). exists a'. split; [exact H|]. destruct S0 as (_ & X & Y & Z), S1 as (_ & X' & Y' & Z').
  split; [rewrite X, X'; reflexivity|]. rewrite (memory_port _ _ Y P Z), (memory_port _ _ Y' P Z'). reflexivity.
Qed.

Lemma step_got : forall l b n s s' p, step (Recvfrom l b n) s = Ok s' (Got p) -> In p (incoming s) /\ outgoing s' = outgoing s.
Proof using.
  intros l b n s s' p. cbn [step]. unfold recv, read_incoming. destruct (pick l (incoming s)) as [(q, r)|] eqn:E; [|destruct b; discriminate]. destruct (n <? length (p_data q))%nat; [discriminate|]. intros H. injection H as <- <-.
  split; [|reflexivity]. revert r E. induction (incoming s) as [|x i IH]; intros r E; [discriminate|]. cbn [pick] in E. destruct (selects (p_to x) l); [injection E as <- <-; left; reflexivity|]. destruct (pick l i) as [(y, r')|]; [|discriminate]. injection E as <- <-. right. eapply IH. reflexivity.
Qed.
Lemma received : forall own block len a s s' p ad ip port, recvfrom pton ntop own block len (Some a) s = Done s' (Got p) ad -> address ip port (p_from p) ->
  exists a', ad = Some a' /\ stands_for a' ip port.
Proof using RD.
  intros own block len a s s' p ad ip port H A. unfold recvfrom, with_text in H. destruct (iport_tostring ntop own) as [l|]; [|discriminate].
  destruct (step (Recvfrom l block len) s) as [s1 r| |] eqn:E; try discriminate.
  assert (K : forall q, r = Got q -> fill pton q (Some a) s1 (Got q) = Done s' (Got p) ad -> exists a', ad = Some a' /\ stands_for a' ip port).
  { intros q _ F. cbn [fill] in F. destruct (iport_parse pton (p_from q) a) as [a'|] eqn:P; [|discriminate]. injection F as _ -> <-. destruct (parsed ip port _ a A) as (a2 & P2 & S2). rewrite P in P2. injection P2 as <-. exists a'. split; [reflexivity|exact S2]. }
  destruct r; try discriminate H. apply (K p0 eq_refl H).
Qed.
Lemma accepted : forall own block fd a s s' fd' p ad ip port, accept pton ntop own block fd (Some a) s = Done s' (Opened fd' p) ad -> address ip port (p_from p) ->
  exists a', ad = Some a' /\ stands_for a' ip port.
Proof using RD.
  intros own block fd a s s' fd' p ad ip port H A. unfold accept, with_text in H. destruct (iport_tostring ntop own) as [l|]; [|discriminate].
  destruct (step (Accept l block fd) s) as [s1 r| |]; try discriminate. destruct r; try discriminate H. cbn [fill] in H.
  destruct (iport_parse pton (p_from p0) a) as [a'|] eqn:P; [|discriminate]. injection H as _ _ -> <-. destruct (parsed ip port _ a A) as (a2 & P2 & S2). rewrite P in P2. injection P2 as <-. exists a'. split; [reflexivity|exact S2].
Qed.
Lemma sent : forall own dest data s ip port ip' port', quad ip -> port < 65536 -> stands_for own ip port -> quad ip' -> port' < 65536 -> stands_for dest ip' port' ->
  exists s' p, sendto ntop own dest data s = Done s' (Sent (length data)) None /\ outgoing s' = outgoing s ++ [p] /\ incoming s' = incoming s /\ last_to s' = p_to p /\ address ip port (p_from p) /\ address ip' port' (p_to p) /\ p_data p = data.
Proof using WD.
  intros own dest data s ip port ip' port' Q P S0 Q' P' S0'. destruct (written own ip port Q P S0) as (t & E & A). destruct (written dest ip' port' Q' P' S0') as (t' & E' & A').
  unfold sendto, with_text. rewrite E, E'. cbn [step plainly]. eexists _, _. split; [reflexivity|]. cbn. split; [reflexivity|]. split; [reflexivity|]. split; [reflexivity|]. split; [exact A|]. split; [exact A'|reflexivity].
Qed.
(** an answer goes where the packet came from *)
Lemma answered : forall own block len a s s1 p ad ip port data oip oport, recvfrom pton ntop own block len (Some a) s = Done s1 (Got p) ad -> address ip port (p_from p) -> quad oip -> oport < 65536 -> stands_for own oip oport ->
  exists a' s2 q, ad = Some a' /\ sendto ntop own a' data s1 = Done s2 (Sent (length data)) None /\ outgoing s2 = outgoing s ++ [q] /\ p_to q = p_from p /\ p_data q = data.
Proof using RD WD.
  intros own block len a s s1 p ad ip port data oip oport H A Q P O. destruct (received _ _ _ _ _ _ _ _ _ _ H A) as (a' & -> & S1). destruct (address_quad _ _ _ A) as (Q1 & P1).
  destruct (sent own a' data s1 oip oport ip port Q P O Q1 P1 S1) as (s2 & q & E & G & _ & _ & _ & T & D). exists a', s2, q. split; [reflexivity|]. split; [exact E|]. split; [|split; [eapply address_unique; [exact T|exact A]|exact D]].
  rewrite G. f_equal. unfold recvfrom, with_text in H. destruct (iport_tostring ntop own) as [l|]; [|discriminate]. destruct (step (Recvfrom l block len) s) as [s3 r| |] eqn:E3; try discriminate. destruct r; try discriminate H. cbn [fill] in H. destruct (iport_parse pton (p_from p0) a); [|discriminate]. injection H as <- _ _. exact (proj2 (step_got _ _ _ _ _ _ E3)).
Qed.
(** a packet injected without a sender comes from where the last one was sent *)
Lemma replied : forall own dest data s s1 ip port ip' port' to rdata s2 r, quad ip -> port < 65536 -> stands_for own ip port -> quad ip' -> port' < 65536 -> stands_for dest ip' port' ->
  sendto ntop own dest data s = Done s1 (Sent (length data)) None -> step (Inject [] to rdata) s1 = Ok s2 r ->
  exists p, incoming s2 = incoming s ++ [p] /\ address ip' port' (p_from p) /\ p_data p = rdata.
Proof using WD.
  intros own dest data s s1 ip port ip' port' to rdata s2 r Q P S0 Q' P' S0' H I0. destruct (sent own dest data s ip port ip' port' Q P S0 Q' P' S0') as (s' & q & E & _ & IN & L & _ & T & _). rewrite H in E. injection E as <-.
  cbn [step] in I0. injection I0 as <- _. cbn [put_incoming incoming]. eexists. rewrite IN. split; [reflexivity|]. cbn. rewrite L. split; [exact T|reflexivity].
Qed.
Lemma unreadable : forall t a, ~ In 58 t -> (length t <= 1000)%nat -> (forall ip, ~ dotted ip t) -> forall d port, decimal d port -> port < 65536 -> exists a', iport_parse pton (t ++ [58] ++ d) a = Some a' /\ sin_addr a' = sin_addr a.
Proof using RD.
  intros t a NC L ND d port D P. destruct (at_colon_ok t d NC) as (E & _). unfold iport_parse. replace (1023 <? length (t ++ [58%N] ++ d))%nat with false.
  - rewrite E. destruct (pton t) as [ip|] eqn:G; [exfalso; apply (ND ip), RD, G|]. rewrite (leading_fold d 0) by apply D. replace (fold_left _ d 0) with port by (symmetry; apply D). replace (2147483647 <? port) with false by (symmetry; apply N.ltb_ge; lia). eexists. split; reflexivity.
  - symmetry. apply Nat.ltb_ge. rewrite !app_length. cbn [length]. pose proof (proj2 (decimal_low d port D)). lia.
Qed.
End lib.
