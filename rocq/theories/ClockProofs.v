(** Proofs about the calendar functions. *)
From Coq Require Import List NArith ZArith Bool Lia.
From Verif Require Import Base StubModel StubSpec StubProofs StubProofs2 ClockModel ClockSpec.
Import ListNotations.
Local Open Scope Z_scope.

Lemma filled_shows : shows 0 new_year filled.
Proof. exists 42%nat, 0%nat, 15340. vm_compute. intuition (try discriminate; try reflexivity; try lia). Qed.
Lemma shows_28800 : forall t d, shows 0 t d -> shows 28800 (t - 28800) d.
Proof.
  intros t d (n & m & y & H1 & H2 & H3 & H4 & H5 & H6 & H7 & H8 & H9 & H10 & H11). exists n, m, y. repeat (split; [assumption|]). lia.
Qed.
Lemma mktime_ok : forall t d, shows 0 new_year d -> shows 28800 (mktime t) d /\ mktime t = new_year - 28800.
Proof. intros t d H. split; [exact (shows_28800 _ _ H)|reflexivity]. Qed.
Lemma gmtime_r_ok : forall st clock result b, gives_new_year b (match result with Some x => x | None => st end) (gmtime_r st clock result b).
Proof.
  intros. unfold gives_new_year, gmtime_r. cbn [fst snd]. rewrite N.eqb_refl. split; [destruct result; reflexivity|]. split; [exact filled_shows|]. split; [reflexivity|].
  intros x Hx. destruct (N.eqb_spec x (match result with Some r => r | None => st end)); congruence.
Qed.
Lemma date_ok : forall st clock b, gives_new_year b st (gmtime st clock b) /\ gives_new_year b st (localtime st clock b) /\
  forall r, gives_new_year b r (gmtime_r st clock (Some r) b) /\ gives_new_year b r (localtime_r st clock (Some r) b).
Proof.
  intros. split; [exact (gmtime_r_ok st clock None b)|]. split; [exact (gmtime_r_ok st clock None b)|].
  intros r. split; exact (gmtime_r_ok st clock (Some r) b).
Qed.

Lemma days_before_mono : forall n k, (n < k)%nat -> days_before n + 365 <= days_before k.
Proof.
  intros n k H. induction k as [|k IH]; [lia|]. cbn [days_before].
  destruct (Nat.eq_dec n k) as [->|D]; [destruct (leap _); lia|]. assert (n < k)%nat by lia. specialize (IH H0). destruct (leap (1970 + Z.of_nat k)); lia.
Qed.
Lemma month_le : forall y m, 0 <= month_length y m.
Proof. intros y m. unfold month_length. do 12 (destruct m as [|m]; [cbn [nth]; try destruct (leap y); lia|]). destruct m; cbn; lia. Qed.
Lemma days_till_mono : forall y m k, (m < k)%nat -> days_till y m + month_length y m <= days_till y k.
Proof.
  intros y m k H. induction k as [|k IH]; [lia|]. cbn [days_till].
  destruct (Nat.eq_dec m k) as [->|D]; [lia|]. assert (m < k)%nat as L by lia. specialize (IH L). pose proof (month_le y k). lia.
Qed.
Lemma year_bound : forall y m, (m <= 12)%nat -> days_till y m <= (if leap y then 366 else 365).
Proof.
  intros y m H. assert (days_till y 12 = if leap y then 366 else 365) as E. { unfold days_till, month_length. cbn [nth]. destruct (leap y); lia. }
  destruct (Nat.eq_dec m 12) as [->|D]; [lia|]. pose proof (days_till_mono y m 12 ltac:(lia)). pose proof (month_le y m). lia.
Qed.

(** the calendar shows each moment in one way *)
Lemma shows_once : forall east t a b, shows east t a -> shows east t b -> zone_of a = zone_of b -> a = b.
Proof.
  intros east t a b (n1 & m1 & d1 & Y1 & M1 & L1 & D1 & J1 & E1 & W1 & H1 & I1 & S1 & T1) (n2 & m2 & d2 & Y2 & M2 & L2 & D2 & J2 & E2 & W2 & H2 & I2 & S2 & T2) Z.
  assert (d1 = d2) as Ed by lia.
  assert (tm_hour a = tm_hour b) by lia. assert (tm_min a = tm_min b) by lia. assert (tm_sec a = tm_sec b) by lia.
  assert (days_till (1970 + Z.of_nat n1) m1 + month_length (1970 + Z.of_nat n1) m1 <= days_before (S n1) - days_before n1) as B1.
  { cbn [days_before]. pose proof (year_bound (1970 + Z.of_nat n1) (S m1) ltac:(lia)) as Y. cbn [days_till] in Y. lia. }
  assert (days_till (1970 + Z.of_nat n2) m2 + month_length (1970 + Z.of_nat n2) m2 <= days_before (S n2) - days_before n2) as B2.
  { cbn [days_before]. pose proof (year_bound (1970 + Z.of_nat n2) (S m2) ltac:(lia)) as Y. cbn [days_till] in Y. lia. }
  assert (forall y m, 0 <= days_till y m) as P. { intros y m. induction m as [|m IH]; cbn [days_till]; [lia|]. pose proof (month_le y m). lia. }
  assert (n1 = n2) as En.
  { pose proof (P (1970 + Z.of_nat n1) m1). pose proof (P (1970 + Z.of_nat n2) m2).
    destruct (Nat.lt_trichotomy n1 n2) as [C|[C|C]]; [|exact C|].
    - destruct (Nat.eq_dec (S n1) n2) as [<-|N]; [lia|]. pose proof (days_before_mono (S n1) n2 ltac:(lia)). lia.
    - destruct (Nat.eq_dec (S n2) n1) as [<-|N]; [lia|]. pose proof (days_before_mono (S n2) n1 ltac:(lia)). lia. }
  subst n2.
  assert (m1 = m2) as Em.
  { destruct (Nat.lt_trichotomy m1 m2) as [C|[C|C]]; [|exact C|].
    - pose proof (days_till_mono (1970 + Z.of_nat n1) m1 m2 C). lia.
    - pose proof (days_till_mono (1970 + Z.of_nat n1) m2 m1 C). lia. }
  subst m2. assert (tm_mday a = tm_mday b) by lia. assert (tm_yday a = tm_yday b) by lia. assert (tm_wday a = tm_wday b) by congruence.
  unfold zone_of in Z. destruct a, b. cbn in *. f_equal; congruence.
Qed.

(** ** texts *)
Lemma text_alike : forall t clock d, shows 0 new_year d -> asctime t = ctime clock /\ alike (asctime t) (standard_text d).
Proof.
  intros t clock d H. split; [reflexivity|].
  assert (standard_text d = standard_text filled) as ->.
  { assert (shows 0 new_year (mktm (tm_sec d) (tm_min d) (tm_hour d) (tm_mday d) (tm_mon d) (tm_year d) (tm_wday d) (tm_yday d) 0 0 0%N)) as H' by (destruct d; exact H).
    pose proof (shows_once _ _ _ _ H' filled_shows eq_refl) as E. rewrite <- E. destruct d. reflexivity. }
  vm_compute. reflexivity.
Qed.
Lemma text_not_standard : forall t d, shows 0 new_year d -> asctime t <> standard_text d.
Proof.
  intros t d H. assert (standard_text d = standard_text filled) as ->.
  { assert (shows 0 new_year (mktm (tm_sec d) (tm_min d) (tm_hour d) (tm_mday d) (tm_mon d) (tm_year d) (tm_wday d) (tm_yday d) 0 0 0%N)) as H' by (destruct d; exact H).
    pose proof (shows_once _ _ _ _ H' filled_shows eq_refl) as E. rewrite <- E. destruct d. reflexivity. }
  vm_compute. discriminate.
Qed.

(** a text and its zero byte written to a buffer of 26 bytes *)
Lemma strcpy_ok : forall m buf, gives_text m buf clock_text (strcpy m buf clock_text).
Proof.
  intros m buf. unfold gives_text, strcpy. cbn [fst snd]. split; [reflexivity|]. split.
  - exact (get_put_same m buf (clock_text ++ [0%N])).
  - intros x H. apply put_out. replace (N.of_nat (length (clock_text ++ [0%N]))) with 25%N by reflexivity. lia.
Qed.
Lemma text_r_ok : forall t clock buf m, gives_text m buf (asctime t) (asctime_r t buf m) /\ gives_text m buf (ctime clock) (ctime_r clock buf m).
Proof. intros. split; exact (strcpy_ok m buf). Qed.

(** ** installation *)
Local Open Scope N_scope.
Definition ents (libc ours : fn -> N) (l : list fn) : frame := map (fun f => (libc f, libc f, ours f)) l.

Lemma stubbed_add : forall s scope src dst fp, stubbed (stub_add s scope src dst) fp -> stubbed s fp \/ fp = follow s src.
Proof.
  intros s scope src dst fp (sc & t & H & E). unfold stub_add in H. destruct (stubs_get s scope src) as [t0|].
  - left. exists sc, t. auto.
  - unfold source_add in H. cbn [stubs] in H. destruct H as [H|H]; [|left; exists sc, t; auto].
    injection H as <- <-. right. cbn in E. auto.
Qed.
Lemma follow_plain : forall m s p, reach m s -> no_jump m p -> (forall fp, stubbed s fp -> fp + 12 <= p \/ p + 12 <= fp) -> follow s p = p.
Proof.
  intros m s p R (J1 & J2 & J3 & J4) F. unfold follow. destruct (find_source s p); [reflexivity|].
  assert (forall x, p <= x < p + 12 -> code s x = m x) as C.
  { intros x Hx. apply (unstubbed_original m s x R). intros fp Hf [P1 P2]. destruct (F fp Hf); lia. }
  unfold follow_jmp1. rewrite !C by lia.
  destruct (N.eqb_spec (m p) 0xE9); [contradiction|]. destruct (N.eqb_spec (m p) 0xEB); [contradiction|].
  destruct (N.eqb_spec (m p) 0xFF), (N.eqb_spec (m (p + 1)) 0x25); cbn [andb]; try (exfalso; tauto);
  destruct (N.eqb_spec (m p) 0x48), (N.eqb_spec (m (p + 1)) 0xFF), (N.eqb_spec (m (p + 2)) 0x25); cbn [andb]; try reflexivity; exfalso; tauto.
Qed.

Lemma install_all : forall m libc ours fs st, replaceable m st libc ours -> forall l done s,
  NoDup (map fst l) -> (forall p, In p l -> ~ In (fst p) done /\ snd p = fst p) ->
  nested m (ents libc ours done :: fs) s -> (forall fp, stubbed s fp -> stubbed st fp \/ In fp (map libc done)) ->
  nested m (ents libc ours (rev (map fst l) ++ done) :: fs) (fold_left (fun s p => stub_add s (N.of_nat (length fs)) (libc (fst p)) (ours (snd p))) l s).
Proof.
  intros m libc ours fs st [RL RO RA RF RC]. induction l as [|[f g] l IH]; intros done s D N H S; [exact H|].
  cbn [map fst rev fold_left snd]. rewrite <- app_assoc. cbn [app]. destruct (N (f, g) (or_introl eq_refl)) as [Nf Eg]. cbn [fst snd] in Nf, Eg. subst g.
  cbn [map fst] in D. inversion D as [|? ? D1 D2]. subst.
  assert (forall fp, stubbed s fp -> fp + 12 <= libc f \/ libc f + 12 <= fp) as Free.
  { intros fp Hf. destruct (S fp Hf) as [Q|Q]; [apply RF; auto|]. apply in_map_iff in Q. destruct Q as (k & <- & Hk). apply RA. intros ->. auto. }
  assert (follow s (libc f) = libc f) as Fo by (apply (follow_plain m); [apply (nested_reach m _ _ H)|apply RC|exact Free]).
  apply IH; auto.
  - intros p Hp. destruct (N p (or_intror Hp)) as [N1 N2]. split; auto. intros [E|E]; [|contradiction]. apply D1. rewrite E. apply in_map. exact Hp.
  - replace (ents libc ours (f :: done)) with (frame_set (ents libc ours done) (libc f) (follow s (libc f)) (ours f)).
    + apply n_add; auto.
      * cbn [allowed]. rewrite Fo. split; [apply RO|]. split; [apply RL|]. intros fp Hf. right. apply Free. exact Hf.
      * rewrite Fo. intros e He Ee. unfold ents in He. apply in_map_iff in He. destruct He as (k & <- & Hk). exact Ee.
    + rewrite Fo. unfold frame_set. replace (existsb (fun e => ent_src e =? libc f) (ents libc ours done)) with false; [reflexivity|].
      symmetry. apply not_true_iff_false. intros X. apply existsb_exists in X. destruct X as (e & He & Ee). apply N.eqb_eq in Ee.
      unfold ents in He. apply in_map_iff in He. destruct He as (k & <- & Hk). unfold ent_src in Ee. cbn in Ee.
      assert (k <> f) as Kf by (intros ->; auto). destruct (RA k f Kf); lia.
  - intros fp Hf. apply stubbed_add in Hf. destruct Hf as [Hf| ->]; [|right; left; symmetry; exact Fo].
    destruct (S fp Hf); [left; auto|right; right; auto].
Qed.

Definition clock_frame (libc ours : fn -> N) : frame := ents libc ours (rev (map fst installs)).
Lemma setup_nested : forall m libc ours fs st, nested m ([] :: fs) st -> replaceable m st libc ours ->
  nested m (clock_frame libc ours :: fs) (initialize true (N.of_nat (length fs)) libc ours st).
Proof.
  intros m libc ours fs st H R. unfold clock_frame, initialize, setup.
  replace (rev (map fst installs)) with (rev (map fst installs) ++ []) by apply app_nil_r.
  apply (install_all m libc ours fs st R); auto.
  - cbn. repeat constructor; cbn; intuition discriminate.
  - intros p Hp. split; [intros []|]. cbn in Hp. intuition (subst; reflexivity).
Qed.

Lemma find_app_none : forall (A : Type) (p : A -> bool) a b, (forall x, In x a -> p x = false) -> find p (a ++ b) = find p b.
Proof. intros A p a b H. induction a as [|x a IH]; [reflexivity|]. cbn. rewrite H by (left; auto). apply IH. intros y Hy. apply H. right. exact Hy. Qed.
Lemma find_app_some : forall (A : Type) (p : A -> bool) a b x, find p a = Some x -> find p (a ++ b) = Some x.
Proof. intros A p a b x. induction a as [|y a IH]; cbn; [discriminate|]. destruct (p y); auto. Qed.
Lemma frame_finds : forall libc ours f, apart_all libc -> find (fun e => ent_fp e =? libc f) (clock_frame libc ours) = Some (libc f, libc f, ours f).
Proof.
  intros libc ours f A. assert (forall g, ent_fp (libc g, libc g, ours g) =? libc f = true -> g = f) as U.
  { intros g E. apply N.eqb_eq in E. unfold ent_fp in E. cbn in E. destruct f, g; try reflexivity; exfalso;
    match type of E with libc ?a = libc ?b => destruct (A a b ltac:(discriminate)); lia end. }
  unfold clock_frame, ents. assert (In f (rev (map fst installs))) as I by (cbn; destruct f; tauto).
  revert I. generalize (rev (map fst installs)). intros l. induction l as [|g l IH]; intros I; [contradiction|]. cbn [map find].
  destruct (ent_fp (libc g, libc g, ours g) =? libc f) eqn:E; [rewrite (U g E); reflexivity|].
  destruct I as [->|I]; [|auto]. unfold ent_fp in E. cbn in E. rewrite N.eqb_refl in E. discriminate.
Qed.

(** in every later state the functions lead to the substitutes unless a scope opened later has its own *)
Lemma stays_in_force : forall m libc ours fs fs' st f, apart_all libc -> nested m (fs' ++ clock_frame libc ours :: fs) st -> untouched fs' (libc f) ->
  jumps_to (code st) (libc f) (ours f).
Proof.
  intros m libc ours fs fs' st f A H U. apply (proj1 (newest_in_force m _ st H)). unfold in_force. rewrite concat_app. cbn [concat].
  rewrite find_app_none.
  - rewrite (find_app_some _ _ _ _ _ (frame_finds libc ours f A)). reflexivity.
  - intros e He. apply in_concat in He. destruct He as (fr & H1 & H2). apply N.eqb_neq. exact (U fr e H1 H2).
Qed.
Lemma installed : forall m libc ours fs st, nested m ([] :: fs) st -> replaceable m st libc ours ->
  exists fr, nested m (fr :: fs) (initialize true (N.of_nat (length fs)) libc ours st) /\
    forall fs' st' f, nested m (fs' ++ fr :: fs) st' -> untouched fs' (libc f) -> jumps_to (code st') (libc f) (ours f).
Proof.
  intros m libc ours fs st H R. exists (clock_frame libc ours). split; [apply setup_nested; auto|].
  intros fs' st' f N U. exact (stays_in_force m libc ours fs fs' st' f (r_apart _ _ _ _ R) N U).
Qed.

(** ** examples *)
Lemma leap_day_shows : shows 0 951782400 (mktm 0 0 0 29 1 100 2 59 0 0 0%N).
Proof. exists 30%nat, 1%nat, 11016%Z. vm_compute. intuition (try discriminate; try reflexivity; try lia). Qed.
Definition number (f : fn) : N :=
  match f with Fgmtime => 0 | Fctime => 1 | Fasctime => 2 | Flocaltime => 3 | Fmktime => 4 | Fgmtime_r => 5 | Fctime_r => 6 | Fasctime_r => 7 | Flocaltime_r => 8 end.
(** the functions lie 16 bytes apart, in code "push %rbp; mov %rsp,%rbp" *)
Definition libc_at (f : fn) : N := 0x2000 + 16 * number f.
Definition ours_at (f : fn) : N := 0x7f0000000000 + 16 * number f.
Definition plain : mem := fun x => match x mod 4 with 0 => 0x55 | 1 => 0x48 | 2 => 0x89 | _ => 0xE5 end.
Lemma plain_replaceable : replaceable plain (mkstate plain [] []) libc_at ours_at.
Proof.
  constructor.
  - intros []; vm_compute; reflexivity.
  - intros []; vm_compute; reflexivity.
  - intros f g D. unfold libc_at. assert (number f <> number g) as N by (destruct f, g; cbn; try discriminate; congruence). lia.
  - intros f fp (sc & t & [] & _).
  - intros []; vm_compute; intuition discriminate.
Qed.
(** a case stubs mktime itself: meanwhile that one is in force for mktime, and the fixed date goes on for the others *)
Lemma installed_example :
  let st := initialize true 0 libc_at ours_at (mkstate plain [] []) in
  let st1 := step st (Add 1 (libc_at Fmktime) 0xA000) in
  let st2 := step st1 (ClearAll 1) in
  nested plain [clock_frame libc_at ours_at] st /\ nested plain [[(libc_at Fmktime, libc_at Fmktime, 0xA000)]; clock_frame libc_at ours_at] st1 /\
  nested plain [clock_frame libc_at ours_at] st2 /\
  jumps_to (code st) (libc_at Fmktime) (ours_at Fmktime) /\ jumps_to (code st1) (libc_at Fmktime) 0xA000 /\
  jumps_to (code st1) (libc_at Fgmtime) (ours_at Fgmtime) /\ jumps_to (code st2) (libc_at Fmktime) (ours_at Fmktime).
Proof.
  cbv zeta. set (st := initialize true 0 libc_at ours_at (mkstate plain [] [])).
  assert (nested plain [clock_frame libc_at ours_at] st) as H0.
  { apply (setup_nested plain libc_at ours_at [] (mkstate plain [] [])); [repeat constructor|exact plain_replaceable]. }
  assert (follow st (libc_at Fmktime) = libc_at Fmktime) as Fo by (vm_compute; reflexivity).
  assert (nested plain [[(libc_at Fmktime, libc_at Fmktime, 0xA000)]; clock_frame libc_at ours_at] (step st (Add 1 (libc_at Fmktime) 0xA000))) as H1.
  { pose proof (n_add plain [] [clock_frame libc_at ours_at] st (libc_at Fmktime) 0xA000 (n_open _ _ _ H0)) as K.
    rewrite Fo in K. apply K; [|intros e []].
    cbn [allowed]. rewrite Fo. split; [vm_compute; reflexivity|]. split; [vm_compute; reflexivity|].
    intros fp (sc & t & I & <-). revert I. assert (map (fun p => t_source (snd p)) (stubs st) = map libc_at (rev (map fst installs))) as E by (vm_compute; reflexivity).
    intros I. apply (in_map (fun p => t_source (snd p))) in I. rewrite E in I. cbn [snd] in I. apply in_map_iff in I. destruct I as (g & <- & _).
    unfold apart, libc_at. destruct g; cbn; lia. }
  split; [exact H0|]. split; [exact H1|]. split; [exact (n_close _ _ _ _ H1)|].
  split; [vm_compute; reflexivity|]. split; [vm_compute; reflexivity|]. split; vm_compute; reflexivity.
Qed.
Lemma without_check : forall m fs st scope libc ours x, nested m fs st -> (forall fp, in_force fs fp <> None -> ~ prefix fp x) ->
  code (initialize false scope libc ours st) x = m x.
Proof. intros m fs st scope libc ours x H U. exact (proj2 (newest_in_force m fs st H) x U). Qed.
