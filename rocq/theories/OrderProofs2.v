(** Reading back what was saved, and replaying it. *)
From Coq Require Import List ZArith NArith Bool Arith Permutation Sorted Lia.
From Verif Require Import Base OrderModel OrderSpec OrderProofs.
Import ListNotations.
Local Open Scope Z_scope.

Lemma take_line_ok : forall l n rest, ~ In 10%N l -> (length l < n)%nat -> take_line n (l ++ 10%N :: rest) = (l ++ [10%N], rest).
Proof.
  induction l as [|c l IH]; intros n rest H L; (destruct n as [|n]; [cbn in L; lia|]); cbn [app take_line].
  - auto.
  - destruct (N.eqb_spec c 10) as [->|E]; [exfalso; apply H; left; auto|]. rewrite IH; auto; [intro; apply H; right; auto|cbn in L; lia].
Qed.
Lemma upto_nul_id : forall l, ~ In 0%N l -> upto_nul l = l.
Proof. induction l as [|c l IH]; intros H; cbn; auto. destruct (N.eqb_spec c 0) as [->|E]; [exfalso; apply H; left; auto|]. rewrite IH; auto. intro; apply H; right; auto. Qed.
Lemma read_line_ok : forall l rest, ~ In 0%N l -> ~ In 10%N l -> (length l <= 510)%nat -> read_line (l ++ 10%N :: rest) = LLine l rest.
Proof.
  intros l rest H0 H1 L. unfold read_line. assert (Ne : l ++ 10%N :: rest <> []) by (destruct l; discriminate).
  rewrite take_line_ok by (auto; lia). rewrite upto_nul_id by (intro I; apply in_app_or in I; destruct I as [I|[I|[]]]; [auto|discriminate]).
  destruct (l ++ 10%N :: rest) eqn:E; [congruence|]. destruct (l ++ [10%N]) eqn:E2; [destruct l; discriminate|].
  rewrite <- E2. rewrite removelast_last. auto.
Qed.
Lemma skip7_ok : forall p l, length p = 7%nat -> skip7 (p ++ l) = Some l.
Proof.
  intros p l H. unfold skip7. rewrite app_length, H. cbn [Nat.add Nat.leb]. rewrite skipn_app, H, Nat.sub_diag.
  rewrite <- H at 1. rewrite skipn_all. auto.
Qed.
Lemma line_len : forall p l, length p = 7%nat -> ~ In 0%N p -> ~ In 10%N p -> line_ok l -> ~ In 0%N (p ++ l) /\ ~ In 10%N (p ++ l) /\ (length (p ++ l) <= 510)%nat.
Proof.
  intros p l H P0 P1 (A & B & C). rewrite app_length, H. split; [|split]; [intro I; apply in_app_or in I; tauto|intro I; apply in_app_or in I; tauto|].
  apply (Nat.le_trans _ (7 + 503)); [apply Nat.add_le_mono_l; auto|]. apply Nat.leb_le. reflexivity.
Qed.
Lemma print_case_shape : forall s c rest, print_case s c ++ rest =
  (p_file ++ o_file (ct c)) ++ 10%N :: ((p_suite ++ o_name (st s)) ++ 10%N :: ((p_case ++ o_name (ct c)) ++ 10%N :: ((p_test ++ verdict (c_failed c)) ++ 10%N :: ([] ++ 10%N :: rest)))).
Proof. intros. unfold print_case. rewrite <- !app_assoc. cbn [app]. rewrite <- !app_assoc. cbn [app]. rewrite <- !app_assoc. cbn [app]. rewrite <- !app_assoc. auto. Qed.
Definition entry_of (s : tsuite) (c : tcase) : entry := mkentry (o_file (ct c)) (o_name (st s)) (o_name (ct c)) (c_failed c).
Definition entries_of (old : list tsuite) : list entry := flat_map (fun s => map (entry_of s) (u_cases s)) old.

Ltac lit := vm_compute; intuition discriminate.
Lemma verdict_ok : forall b, line_ok (verdict b).
Proof. intros []; (split; [lit|split; [lit|apply Nat.leb_le; reflexivity]]). Qed.
Lemma read_one : forall fuel s c rest, line_ok (o_name (st s)) -> line_ok (o_file (ct c)) -> line_ok (o_name (ct c)) ->
  read_entries (S fuel) (print_case s c ++ rest) = match read_entries fuel rest with Some es => Some (entry_of s c :: es) | None => None end.
Proof.
  intros fuel s c rest Hs Hf Hc. rewrite print_case_shape. cbn [read_entries].
  destruct (line_len p_file (o_file (ct c)) eq_refl ltac:(lit) ltac:(lit) Hf) as (A1 & A2 & A3). rewrite read_line_ok by auto.
  destruct (line_len p_suite (o_name (st s)) eq_refl ltac:(lit) ltac:(lit) Hs) as (B1 & B2 & B3). rewrite read_line_ok by auto.
  destruct (line_len p_case (o_name (ct c)) eq_refl ltac:(lit) ltac:(lit) Hc) as (C1 & C2 & C3). rewrite read_line_ok by auto.
  destruct (line_len p_test (verdict (c_failed c)) eq_refl ltac:(lit) ltac:(lit) (verdict_ok _)) as (D1 & D2 & D3). rewrite read_line_ok by auto.
  rewrite (read_line_ok [] rest) by (auto; cbn; lia). rewrite !skip7_ok by reflexivity.
  destruct (read_entries fuel rest); auto. do 2 f_equal. unfold entry_of. f_equal. destruct (c_failed c); reflexivity.
Qed.
Lemma read_cases : forall s cs rest es fuel, line_ok (o_name (st s)) -> (forall c, In c cs -> line_ok (o_file (ct c)) /\ line_ok (o_name (ct c))) ->
  read_entries fuel rest = Some es -> read_entries (length cs + fuel) (flat_map (print_case s) cs ++ rest) = Some (map (entry_of s) cs ++ es).
Proof.
  induction cs as [|c cs IH]; intros rest es fuel Hs Hc H; cbn [flat_map map length app Nat.add]; auto.
  rewrite <- app_assoc, read_one; auto; [|apply Hc; left; auto|apply Hc; left; auto]. rewrite (IH rest es fuel); auto. intros; apply Hc; right; auto.
Qed.
Lemma read_suites : forall ss fuel, printable ss -> read_entries (length (flat_map u_cases ss) + S fuel) (save_last_order ss) = Some (entries_of ss).
Proof.
  induction ss as [|s ss IH]; intros fuel H.
  - reflexivity.
  - unfold save_last_order, entries_of. cbn [flat_map]. rewrite app_length, <- Nat.add_assoc.
    destruct (H s (or_introl eq_refl)) as [H1 H2]. apply read_cases; auto. apply IH. intros x I. apply H. right; auto.
Qed.
Lemma print_nonempty : forall s c, (1 <= length (print_case s c))%nat.
Proof. intros. unfold print_case. rewrite app_length. cbn. lia. Qed.
Lemma save_long : forall ss, (length (flat_map u_cases ss) <= length (save_last_order ss))%nat.
Proof.
  induction ss as [|s ss IH]; cbn [flat_map save_last_order]; auto. rewrite !app_length. fold (save_last_order ss). apply Nat.add_le_mono; auto.
  induction (u_cases s) as [|c cs IHc]; cbn [flat_map length]; auto. rewrite app_length. pose proof (print_nonempty s c). lia.
Qed.
Lemma round_trip : forall ss, printable ss -> read_entries (S (length (save_last_order ss))) (save_last_order ss) = Some (entries_of ss).
Proof.
  intros ss H. pose proof (save_long ss) as L. pose proof (read_suites ss (length (save_last_order ss) - length (flat_map u_cases ss)) H) as R.
  replace (length (flat_map u_cases ss) + S (length (save_last_order ss) - length (flat_map u_cases ss)))%nat with (S (length (save_last_order ss))) in R by lia. auto.
Qed.

(** *** the numbers given, as functions of suite name and case key *)
Definition skey := (bytes * bytes)%type.
Record marks := mkm { m_case : bytes -> skey -> Z; m_suite : bytes -> Z; m_last : bytes -> skey -> bool }.
Definition paint_case (m : marks) (u : bytes) (c : tcase) : tcase :=
  mktc (set_seq (ct c) (m_case m u (key c))) (c_failed c) (m_last m u (key c)).
Definition paint (m : marks) (now : list tsuite) : list tsuite :=
  map (fun s => mkts (set_seq (st s) (m_suite m (sname s))) (map (paint_case m (sname s)) (u_cases s))) now.
Definition mark (m : marks) (u : bytes) (k : skey) (v : Z) (f : bool) : marks :=
  mkm (fun u' k' => if bytes_eqb u u' && key_eqb k k' then v else m_case m u' k')
      (fun u' => if bytes_eqb u u' then v else m_suite m u')
      (fun u' k' => if bytes_eqb u u' && key_eqb k k' then (if f then true else m_last m u' k') else m_last m u' k').
Definition ekey (e : entry) : skey := (e_file e, e_case e).
Definition here (now : list tsuite) (e : entry) : bool := mem_key (ekey e) (keys_of now (e_suite e)).
Definition mark_entry (now : list tsuite) (x : marks * Z) (e : entry) : marks * Z :=
  if here now e then (mark (fst x) (e_suite e) (ekey e) (snd x + 1) (e_failed e), snd x + 1) else x.

Lemma key_eqb_eq : forall a b, key_eqb a b = true <-> a = b.
Proof. intros [a1 a2] [b1 b2]. unfold key_eqb. rewrite andb_true_iff, !bytes_eqb_eq. cbn. split; [intros [-> ->]; auto|intro H; inversion H; auto]. Qed.
Lemma key_eqb_refl : forall a, key_eqb a a = true. Proof. intros. apply key_eqb_eq. auto. Qed.
Lemma mem_key_In : forall k l, mem_key k l = true <-> In k l.
Proof. intros. unfold mem_key. rewrite existsb_exists. split; [intros (x & I & E); apply key_eqb_eq in E; subst; auto|intro I; exists k; split; auto; apply key_eqb_refl]. Qed.

Lemma find_cond : forall e c, (bytes_eqb (e_case e) (o_name (ct c)) && bytes_eqb (e_file e) (o_file (ct c))) = key_eqb (ekey e) (key c).
Proof. intros. unfold key_eqb, ekey, key. cbn [fst snd]. apply andb_comm. Qed.
Lemma find_cond_paint : forall e m u c, (bytes_eqb (e_case e) (o_name (ct (paint_case m u c))) && bytes_eqb (e_file e) (o_file (ct (paint_case m u c)))) = key_eqb (ekey e) (key c).
Proof. intros. unfold key_eqb, ekey, key, paint_case. cbn [fst snd ct o_name o_file set_seq]. apply andb_comm. Qed.

Lemma find_none : forall e m u cs k s, ~ In (ekey e) (map key cs) -> find_in_cases e k s (map (paint_case m u) cs) = (s, map (paint_case m u) cs, k).
Proof.
  induction cs as [|c cs IH]; intros k s H; cbn [map find_in_cases]; auto. rewrite find_cond_paint.
  destruct (key_eqb (ekey e) (key c)) eqn:E; [exfalso; apply H; left; apply key_eqb_eq in E; auto|]. rewrite IH; auto. intro; apply H; right; auto.
Qed.
Lemma paint_other : forall m u k v f u' c, (u <> u' \/ k <> key c) -> paint_case (mark m u k v f) u' c = paint_case m u' c.
Proof.
  intros m u k v f u' c H. unfold paint_case, mark. cbn [m_case m_last].
  destruct (bytes_eqb u u' && key_eqb k (key c)) eqn:E; auto. apply andb_true_iff in E. destruct E as [E1 E2]. apply bytes_eqb_eq in E1. apply key_eqb_eq in E2. tauto.
Qed.
Lemma paint_others : forall m u k v f u' cs, (u <> u' \/ ~ In k (map key cs)) -> map (paint_case (mark m u k v f) u') cs = map (paint_case m u') cs.
Proof.
  intros m u k v f u' cs H. apply map_ext_in. intros c I. apply paint_other. destruct H as [H|H]; auto. right. intro E. apply H. rewrite E. apply in_map. auto.
Qed.
Lemma find_one : forall e m u cs k s, NoDup (map key cs) -> In (ekey e) (map key cs) ->
  find_in_cases e k s (map (paint_case m u) cs) = (set_seq s (k + 1), map (paint_case (mark m u (ekey e) (k + 1) (e_failed e)) u) cs, k + 1).
Proof.
  induction cs as [|c cs IH]; intros k s ND I; [destruct I|]. cbn [map find_in_cases]. rewrite find_cond_paint. inversion ND as [|? ? N1 N2]; subst.
  destruct (key_eqb (ekey e) (key c)) eqn:E.
  - apply key_eqb_eq in E. rewrite E in *. rewrite find_none by (rewrite E; auto). rewrite paint_others by (right; auto).
    f_equal. f_equal. f_equal. unfold paint_case, mark. cbn [m_case m_last ct c_failed c_last set_seq]. rewrite bytes_eqb_refl, key_eqb_refl. cbn [andb]. reflexivity.
  - assert (Ne : ekey e <> key c) by (intro Z; apply key_eqb_eq in Z; congruence). destruct I as [I|I]; [congruence|]. rewrite IH by auto. rewrite paint_other by (right; auto). reflexivity.
Qed.
Lemma keys_of_In : forall ss u k, In k (keys_of ss u) <-> exists s, In s ss /\ sname s = u /\ In k (keys s).
Proof.
  intros. unfold keys_of. rewrite in_flat_map. split.
  - intros (s & I & H). destruct (bytes_eqb (sname s) u) eqn:E; [|destruct H]. apply bytes_eqb_eq in E. exists s. auto.
  - intros (s & I & E & H). exists s. split; auto. rewrite E, bytes_eqb_refl. auto.
Qed.
Lemma sname_paint : forall m now, map sname (paint m now) = map sname now.
Proof. intros. unfold paint. rewrite map_map. apply map_ext. intros. reflexivity. Qed.
Lemma paint_suite_other : forall m u k v f now, ~ In u (map sname now) -> paint (mark m u k v f) now = paint m now.
Proof.
  intros m u k v f now H. unfold paint. apply map_ext_in. intros s I.
  assert (u <> sname s) by (intro E; apply H; rewrite E; apply in_map; auto). rewrite paint_others by auto. f_equal. f_equal. unfold mark. cbn [m_suite].
  destruct (bytes_eqb u (sname s)) eqn:E; auto. apply bytes_eqb_eq in E. congruence.
Qed.
Lemma find_case_none : forall e m now k, ~ In (ekey e) (keys_of now (e_suite e)) -> find_case e k (paint m now) = (paint m now, k).
Proof.
  induction now as [|s now IH]; intros k H; cbn [paint map find_case]; auto.
  assert (H' : ~ In (ekey e) (keys_of now (e_suite e))) by (intro I; apply H; apply keys_of_In in I; destruct I as (x & I1 & I2); apply keys_of_In; exists x; cbn; tauto).
  cbn [st set_seq o_name u_cases]. fold (sname s). unfold paint in IH. destruct (bytes_eqb (e_suite e) (sname s)) eqn:E.
  - rewrite find_none.
    + rewrite IH; auto.
    + intro I. apply H. apply keys_of_In. exists s. apply bytes_eqb_eq in E. cbn. auto.
  - rewrite IH; auto.
Qed.
Lemma find_case_one : forall e m now k, NoDup (map sname now) -> (forall s, In s now -> NoDup (keys s)) -> In (ekey e) (keys_of now (e_suite e)) ->
  find_case e k (paint m now) = (paint (mark m (e_suite e) (ekey e) (k + 1) (e_failed e)) now, k + 1).
Proof.
  induction now as [|s now IH]; intros k ND NK H; [destruct H|]. cbn [paint map find_case]. cbn [st set_seq o_name u_cases]. fold (sname s).
  cbn [map] in ND. inversion ND as [|? ? N1 N2]; subst. apply keys_of_In in H. destruct H as (x & I & Ex & Ix).
  destruct (bytes_eqb (e_suite e) (sname s)) eqn:E.
  - apply bytes_eqb_eq in E. assert (x = s). { destruct I as [<-|I]; auto. exfalso. apply N1. rewrite <- E, <- Ex. apply in_map. auto. } subst x.
    rewrite (find_one e m (sname s) (u_cases s) k); auto; [|apply NK; left; auto].
    fold (paint m now). rewrite find_case_none.
    + pose proof (paint_suite_other m (e_suite e) (ekey e) (k + 1) (e_failed e) now) as PO. rewrite E in PO. specialize (PO N1). fold (paint (mark m (e_suite e) (ekey e) (k + 1) (e_failed e)) now). rewrite E. rewrite PO.
      f_equal. f_equal. f_equal. unfold set_seq. cbn. rewrite bytes_eqb_refl. auto.
    + intro Z. apply keys_of_In in Z. destruct Z as (y & Z1 & Z2 & _). apply N1. rewrite <- E, <- Z2. apply in_map. auto.
  - assert (Ne : e_suite e <> sname s) by (intro Z; apply bytes_eqb_eq in Z; congruence).
    destruct I as [<-|I]; [congruence|]. fold (paint m now). rewrite IH; auto.
    + fold (paint (mark m (e_suite e) (ekey e) (k + 1) (e_failed e)) now). f_equal. f_equal. rewrite paint_others by auto. f_equal. f_equal. unfold mark. cbn [m_suite]. rewrite E. auto.
    + intros; apply NK; right; auto.
    + apply keys_of_In. exists x. auto.
Qed.
Lemma find_paint : forall now e m k, distinct now ->
  find_case e k (paint m now) = (paint (fst (mark_entry now (m, k) e)) now, snd (mark_entry now (m, k) e)).
Proof.
  intros now e m k [D1 D2]. unfold mark_entry, here. destruct (mem_key (ekey e) (keys_of now (e_suite e))) eqn:M.
  - apply mem_key_In in M. cbn [fst snd]. apply find_case_one; auto.
  - apply find_case_none. intro I. apply mem_key_In in I. congruence.
Qed.
Lemma find_all_paint : forall es now m k, distinct now ->
  find_all es k (paint m now) = (paint (fst (fold_left (mark_entry now) es (m, k))) now, snd (fold_left (mark_entry now) es (m, k))).
Proof.
  unfold find_all. induction es as [|e es IH]; intros now m k D; cbn [fold_left fst snd]; auto.
  rewrite find_paint by auto. rewrite (IH now _ _ D). destruct (mark_entry now (m, k) e); auto.
Qed.

(** the initial numbers *)
Definition lookup_suite (now : list tsuite) (u : bytes) : option tsuite := find (fun s => bytes_eqb (sname s) u) now.
Definition lookup_case (now : list tsuite) (u : bytes) (k : skey) : option tcase :=
  match lookup_suite now u with Some s => find (fun c => key_eqb (key c) k) (u_cases s) | None => None end.
Definition marks0 (now : list tsuite) : marks :=
  mkm (fun u k => match lookup_case now u k with Some c => o_seq (ct c) | None => 0 end)
      (fun u => match lookup_suite now u with Some s => o_seq (st s) | None => 0 end)
      (fun u k => match lookup_case now u k with Some c => c_last c | None => false end).
Lemma lookup_suite_in : forall now s, NoDup (map sname now) -> In s now -> lookup_suite now (sname s) = Some s.
Proof.
  unfold lookup_suite. induction now as [|x now IH]; intros s ND I; [destruct I|]. cbn [map] in ND. inversion ND as [|? ? N1 N2]; subst. cbn [find].
  destruct I as [->|I]; [rewrite bytes_eqb_refl; auto|]. destruct (bytes_eqb (sname x) (sname s)) eqn:E; [|auto]. apply bytes_eqb_eq in E. exfalso. apply N1. rewrite E. apply in_map. auto.
Qed.
Lemma find_key_in : forall cs c, NoDup (map key cs) -> In c cs -> find (fun x => key_eqb (key x) (key c)) cs = Some c.
Proof.
  induction cs as [|x cs IH]; intros c ND I; [destruct I|]. cbn [map] in ND. inversion ND as [|? ? N1 N2]; subst. cbn [find].
  destruct I as [->|I]; [rewrite key_eqb_refl; auto|]. destruct (key_eqb (key x) (key c)) eqn:E; [|auto]. apply key_eqb_eq in E. exfalso. apply N1. rewrite E. apply in_map. auto.
Qed.
Lemma lookup_case_in : forall now s c, distinct now -> In s now -> In c (u_cases s) -> lookup_case now (sname s) (key c) = Some c.
Proof. intros now s c [D1 D2] Is Ic. unfold lookup_case. rewrite lookup_suite_in by auto. apply find_key_in; auto. apply D2; auto. Qed.
Lemma paint0 : forall now, distinct now -> paint (marks0 now) now = now.
Proof.
  intros now D. unfold paint. rewrite <- (map_id now) at 2. apply map_ext_in. intros s I. destruct s as [t cs] eqn:Es. rewrite <- Es in *. cbn [marks0 m_suite].
  rewrite lookup_suite_in by (auto; apply D). rewrite Es. cbn [st u_cases sname]. f_equal.
  - destruct t; reflexivity.
  - transitivity (map (fun c => c) cs); [|apply map_id]. apply map_ext_in. intros c Ic. unfold paint_case. cbn [marks0 m_case m_last].
    assert (L : lookup_case now (sname {| st := t; u_cases := cs |}) (key c) = Some c). { rewrite <- Es. apply lookup_case_in; auto. rewrite Es. auto. }
    rewrite L. destruct c as [t0 f l]. cbn. destruct t0; reflexivity.
Qed.
