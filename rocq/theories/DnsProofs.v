(** Proofs about name resolution. *)
From Coq Require Import List NArith Bool Arith Lia.
From Verif Require Import Base DnsModel DnsSpec.
Import ListNotations.
Local Open Scope N_scope.

Section D.
Variable pton : bytes -> option N.
Notation choose := (choose pton).
Lemma history_snoc es e : history pton (es ++ [e]) = step pton (history pton es) e.
Proof. unfold history. apply fold_left_app. Qed.
Lemma current_running es : current (history pton es) = running (rev es).
Proof.
  induction es as [|e es IH] using rev_ind; [reflexivity|]. rewrite history_snoc, rev_app_distr. cbn [rev app]. destruct e as [args|c|c]; cbn [step running]; auto.
  unfold setaddrinfo. destruct args; cbn [current]; exact IH.
Qed.
Definition entry (args : list (option bytes)) : bytes * list bytes := (choose args, others (choose args) args).
Definition kept (ended : list N) (d : domain) : bool := match owner d with Some o => if in_dec N.eq_dec o ended then false else true | None => true end.
Lemma filter_filter {X} (f g : X -> bool) l : filter f (filter g l) = filter (fun x => g x && f x) l.
Proof. induction l as [|x l IH]; [reflexivity|]. cbn [filter]. destruct (g x); cbn [andb filter]; rewrite IH; reflexivity. Qed.
Lemma table_force es ended : map (fun d => (name d, resolves d)) (filter (kept ended) (table (history pton es))) = map entry (in_force ended (rev es)).
Proof.
  revert ended. induction es as [|e es IH] using rev_ind; intro ended; [reflexivity|]. rewrite history_snoc, rev_app_distr. cbn [rev app]. destruct e as [args|c|c]; cbn [step].
  - destruct args as [|a args]; [apply IH|]. unfold setaddrinfo. remember (a :: args) as L eqn:EL. cbn [table]. rewrite current_running.
    assert (E : in_force ended (Set_ L :: rev es) = match running (rev es) with Some c => if in_dec N.eq_dec c ended then in_force ended (rev es) else L :: in_force ended (rev es) | None => L :: in_force ended (rev es) end) by (rewrite EL; reflexivity).
    rewrite E. cbn [filter]. unfold kept at 1. cbn [owner]. destruct (running (rev es)) as [c|].
    + destruct (in_dec N.eq_dec c ended); [apply IH|]. cbn [map]. rewrite IH. reflexivity.
    + cbn [map]. rewrite IH. reflexivity.
  - cbn [in_force table]. apply IH.
  - cbn [in_force]. rewrite <- IH. unfold clear. cbn [table]. rewrite filter_filter. f_equal. apply filter_ext. intro d. unfold kept. destruct (owner d) as [o|]; [|reflexivity].
    cbn [in_dec]. destruct (N.eqb_spec o c) as [->|NE]; cbn [negb andb]; destruct (in_dec N.eq_dec _ (c :: ended)) as [I|I]; try reflexivity.
    + exfalso. apply I. left; reflexivity.
    + destruct I as [I|I]; [congruence|]. destruct (in_dec N.eq_dec o ended); [reflexivity|contradiction].
    + destruct (in_dec N.eq_dec o ended) as [J|J]; [exfalso; apply I; right; exact J|reflexivity].
Qed.
Lemma kept_nil l : filter (kept []) l = l.
Proof. induction l as [|d l IH]; [reflexivity|]. cbn [filter]. rewrite IH. unfold kept. destruct (owner d); reflexivity. Qed.
Lemma dns_table es : map (fun d => (name d, resolves d)) (table (history pton es)) = map entry (in_force [] (rev es)).
Proof. rewrite <- table_force, kept_nil. reflexivity. Qed.
Definition answers (host : bytes) (args : list (option bytes)) : Prop := choose args = str "*" \/ choose args = host.
Lemma find_first host es : match find host (history pton es) with
  | Some d => exists newer args older, in_force [] (rev es) = newer ++ args :: older /\ (forall x, In x newer -> ~ answers host x) /\ answers host args /\ name d = choose args /\ resolves d = others (choose args) args
  | None => forall x, In x (in_force [] (rev es)) -> ~ answers host x
  end.
Proof.
  pose proof (dns_table es) as T. unfold find. revert T. generalize (in_force [] (rev es)) as F. generalize (table (history pton es)) as l. induction l as [|d l IH]; intros F T; destruct F as [|args F]; try discriminate.
  - cbn. tauto.
  - cbn [map] in T. injection T as T1 T2 T3. cbn [List.find].
    destruct (bytes_eqb (name d) (str "*") || bytes_eqb (name d) host) eqn:B.
    + exists [], args, F. split; [reflexivity|]. split; [contradiction|]. split; [|auto]. unfold answers. rewrite <- T1. apply orb_true_iff in B. destruct B as [B|B]; apply bytes_eqb_eq in B; auto.
    + assert (NA : ~ answers host args). { unfold answers. rewrite <- T1. apply orb_false_iff in B. destruct B as [B1 B2]. intros [E|E]; rewrite E, bytes_eqb_refl in *; discriminate. }
      specialize (IH F T3). destruct (List.find _ l) as [d'|].
      * destruct IH as (nw & ar & ol & -> & N1 & A1 & E1). exists (args :: nw), ar, ol. split; [reflexivity|]. split; [|auto]. intros x [<-|I]; auto.
      * intros x [<-|I]; auto.
Qed.
(** the name *)
Lemma choose_app a b : choose (a ++ b) = fold_left (fun h p => match p with None => h | Some p => match pton p with Some _ => h | None => if (length h <? 2)%nat || (length p <? length h)%nat then p else h end end) b (choose a).
Proof. unfold DnsModel.choose. apply fold_left_app. Qed.
Lemma choose_snoc a p : choose (a ++ [p]) = match p with None => choose a | Some p => match pton p with Some _ => choose a | None => if (length (choose a) <? 2)%nat || (length p <? length (choose a))%nat then p else choose a end end.
Proof. rewrite choose_app. reflexivity. Qed.
Lemma choose_none args : (forall p, ~ is_name pton args p) -> choose args = str "*".
Proof.
  induction args as [|p args IH] using rev_ind; intro H; [reflexivity|]. rewrite choose_snoc.
  assert (E : choose args = str "*") by (apply IH; intros q [I Q]; apply (H q); split; [apply in_or_app; left; exact I|exact Q]).
  destruct p as [p|]; [|exact E]. destruct (pton p) eqn:Pp; [exact E|]. exfalso. apply (H p). split; [apply in_or_app; right; left; reflexivity|exact Pp].
Qed.
Lemma choose_shortest args : (forall p, is_name pton args p -> (2 <= length p)%nat) -> (exists p, is_name pton args p) -> first_shortest pton args (choose args).
Proof.
  induction args as [|p args IH] using rev_ind; intros L (q & I & Q); [contradiction|].
  assert (L' : forall p, is_name pton args p -> (2 <= length p)%nat) by (intros r [Ir Qr]; apply L; split; [apply in_or_app; left; exact Ir|exact Qr]).
  assert (D : (exists p, is_name pton args p) \/ (forall p, ~ is_name pton args p)).
  { clear. induction args as [|a args IHa]; [right; intros p [[] _]|]. destruct IHa as [(p & Ip & Qp)|N]; [left; exists p; split; [right; exact Ip|exact Qp]|].
    destruct a as [a|]; [|right; intros p [[E|Ip] Qp]; [discriminate|apply (N p); split; auto]]. destruct (pton a) eqn:Pa; [|left; exists a; split; [left; reflexivity|exact Pa]].
    right. intros p [[E|Ip] Qp]; [injection E as ->; congruence|apply (N p); split; auto]. }
  rewrite choose_snoc. destruct p as [p|].
  - destruct (pton p) eqn:Pp.
    + apply in_app_or in I. destruct I as [I|[I|[]]]; [|injection I as ->; congruence]. destruct (IH L' (ex_intro _ q (conj I Q))) as (b & a & E & F1 & F2 & F3).
      exists b, (a ++ [Some p]). split; [rewrite E at 1; rewrite <- app_assoc; reflexivity|]. repeat split; auto. intros r [Ir Qr]. apply in_app_or in Ir. destruct Ir as [Ir|[Ir|[]]]; [apply F3; split; auto|injection Ir as ->; congruence].
    + destruct D as [(r & Ir & Qr)|N].
      * destruct (IH L' (ex_intro _ r (conj Ir Qr))) as (b & a & E & F1 & F2 & F3).
        assert (LC : (2 <= length (choose args))%nat) by (apply L'; split; [rewrite E at 2; apply in_or_app; right; left; reflexivity|exact F1]).
        replace (length (choose args) <? 2)%nat with false by (symmetry; apply Nat.ltb_ge; exact LC). cbn [orb]. destruct (length p <? length (choose args))%nat eqn:LT.
        -- apply Nat.ltb_lt in LT. exists args, []. split; [reflexivity|]. split; [exact Pp|]. split; [|intros x [[] _]]. intros x [Ix Qx]. rewrite E in Ix. apply in_app_or in Ix. destruct Ix as [Ix|[Ix|Ix]].
           ++ specialize (F2 x (conj Ix Qx)). lia.
           ++ injection Ix as <-. exact LT.
           ++ specialize (F3 x (conj Ix Qx)). lia.
        -- apply Nat.ltb_ge in LT. exists b, (a ++ [Some p]). split; [rewrite E at 1; rewrite <- app_assoc; reflexivity|]. repeat split; auto. intros x [Ix Qx]. apply in_app_or in Ix. destruct Ix as [Ix|[Ix|[]]]; [apply F3; split; auto|injection Ix as <-; exact LT].
      * rewrite choose_none by exact N. cbn [str length Nat.ltb Nat.leb orb]. exists args, []. split; [reflexivity|]. split; [exact Pp|]. split; [intros x Hx; exfalso; apply (N x Hx)|intros x [[] _]].
  - apply in_app_or in I. destruct I as [I|[I|[]]]; [|discriminate]. destruct (IH L' (ex_intro _ q (conj I Q))) as (b & a & E & F1 & F2 & F3).
    exists b, (a ++ [None]). split; [rewrite E at 1; rewrite <- app_assoc; reflexivity|]. repeat split; auto. intros r [Ir Qr]. apply in_app_or in Ir. destruct Ir as [Ir|[Ir|[]]]; [apply F3; split; auto|discriminate].
Qed.
Lemma others_spec h args : others h args = flat_map (fun p => match p with Some p => if list_eq_dec N.eq_dec p h then [] else [p] | None => [] end) args.
Proof.
  unfold others. induction args as [|p args IH]; [reflexivity|]. cbn [flat_map]. rewrite IH. f_equal. destruct p as [p|]; [|reflexivity]. destruct (list_eq_dec N.eq_dec p h) as [->|NE]; [rewrite bytes_eqb_refl; reflexivity|].
  destruct (bytes_eqb h p) eqn:B; [apply bytes_eqb_eq in B; congruence|reflexivity].
Qed.
(** tables *)
Lemma read_slots_spec {X} (l : list X) : (length l <= 31)%nat -> read_slots (slots l) = Some l.
Proof.
  unfold slots. intro L. assert (G : forall n, (0 < n)%nat -> read_slots (map Some l ++ repeat None n) = Some l).
  { clear L. induction l as [|x l IH]; intros n H; [destruct n; [lia|reflexivity]|]. cbn [map app read_slots]. rewrite IH by exact H. reflexivity. }
  apply G. lia.
Qed.
End D.

Section F.
Variable pton : bytes -> option N.
Notation choose := (choose pton).
Lemma force_in ended back args : In args (in_force ended back) -> In (Set_ args) back /\ args <> [].
Proof.
  revert ended. induction back as [|e back IH]; intros ended I; [contradiction|]. destruct e as [a|c|c]; cbn [in_force] in I.
  - assert (C : In args (in_force ended back) \/ (args = a /\ a <> [])).
    { destruct a as [|x a]; [left; exact I|]. destruct (running back) as [c|]; [destruct (in_dec N.eq_dec c ended)|]; auto; destruct I as [<-|I]; auto; right; split; auto; discriminate. }
    destruct C as [C|[-> C]]; [destruct (IH _ C); split; auto; right; auto|split; [left; reflexivity|exact C]].
  - destruct (IH _ I). split; auto. right; auto.
  - destruct (IH _ I). split; auto. right; auto.
Qed.
Lemma name_dec args : (exists p, is_name pton args p) \/ (forall p, ~ is_name pton args p).
Proof.
  induction args as [|a args IHa]; [right; intros p [[] _]|]. destruct IHa as [(p & Ip & Qp)|NN]; [left; exists p; split; [right; exact Ip|exact Qp]|].
  destruct a as [a|]; [|right; intros p [[E|Ip] Qp]; [discriminate|apply (NN p); split; auto]]. destruct (pton a) eqn:Pa; [|left; exists a; split; [left; reflexivity|exact Pa]].
  right. intros p [[E|Ip] Qp]; [injection E as ->; congruence|apply (NN p); split; auto].
Qed.
Lemma shortest_unique args h h' : first_shortest pton args h -> first_shortest pton args h' -> h = h'.
Proof.
  intros (b & a & E & P & F1 & F2) (b' & a' & E' & P' & F1' & F2'). rewrite E in E'. clear E. revert b' E' F1'. induction b as [|x b IH]; intros b' E' F1'.
  - destruct b' as [|y b']; [cbn in E'; congruence|]. cbn [app] in E'. injection E' as <- E'.
    assert (I : is_name pton (Some h :: b') h) by (split; [left; reflexivity|exact P]). specialize (F1' h I).
    assert (I' : is_name pton a h') by (split; [rewrite E'; apply in_or_app; right; left; reflexivity|exact P']). specialize (F2 h' I'). lia.
  - destruct b' as [|y b']; cbn [app] in E'; injection E' as -> E'.
    + assert (I : is_name pton (Some h' :: b) h') by (split; [left; reflexivity|exact P']). specialize (F1 h' I).
      assert (I' : is_name pton a' h) by (split; [rewrite <- E'; apply in_or_app; right; left; reflexivity|exact P]). specialize (F2' h I'). lia.
    + apply (IH) with (b' := b'); auto.
      * intros p [Ip Qp]. apply F1. split; [right; exact Ip|exact Qp].
      * intros p [Ip Qp]. apply F1'. split; [right; exact Ip|exact Qp].
Qed.
Lemma answers_about args host : proper pton args -> host <> str "*" -> (answers pton host args <-> about pton args host).
Proof.
  intros [_ PR] NS. unfold answers, about. destruct (name_dec args) as [EX|NN].
  - pose proof (choose_shortest pton args PR EX) as FS. split.
    + intros [E|E]; [|right; rewrite <- E; exact FS]. exfalso. destruct FS as (b & a & E1 & P1 & _). assert (I : is_name pton args (choose args)) by (split; [rewrite E1 at 2; apply in_or_app; right; left; reflexivity|exact P1]). apply PR in I. rewrite E in I. cbn in I. lia.
    + intros [NN|FS']; [destruct EX as (p & Hp); exfalso; apply (NN p Hp)|]. right. apply (shortest_unique _ _ _ FS FS').
  - split; [intros _; left; exact NN|]. intros _. left. apply choose_none. exact NN.
Qed.
Lemma results_others args : proper pton args -> results pton args (others (choose args) args).
Proof.
  intros [_ PR]. exists (choose args). split; [|apply others_spec]. destruct (name_dec args) as [EX|NN]; [right; apply choose_shortest; auto|left; split; [exact NN|apply choose_none; exact NN]].
Qed.
Lemma find_newest es host : (forall args, In (Set_ args) es -> args = [] \/ proper pton args) -> host <> str "*" ->
  match find host (history pton es) with
  | Some d => exists args, newest pton es host args /\ results pton args (resolves d)
  | None => forall args, ~ newest pton es host args
  end.
Proof.
  intros PR NS. assert (PI : forall x, In x (in_force [] (rev es)) -> proper pton x).
  { intros x I. apply force_in in I. destruct I as [I NE]. apply in_rev in I. destruct (PR x I); [contradiction|assumption]. }
  pose proof (find_first pton host es) as F. destruct (find host (history pton es)) as [d|].
  - destruct F as (nw & args & ol & E & N1 & A1 & E1 & E2). exists args.
    assert (PA : proper pton args) by (apply PI; rewrite E; apply in_or_app; right; left; reflexivity). split.
    + exists nw, ol. split; [exact E|]. split; [apply answers_about; auto|]. intros x I A. apply (N1 x I). apply answers_about; auto. apply PI. rewrite E. apply in_or_app. left. exact I.
    + rewrite E2. apply results_others. exact PA.
  - intros args (nw & ol & E & A & _). assert (I : In args (in_force [] (rev es))) by (rewrite E; apply in_or_app; right; left; reflexivity). apply (F args I). apply answers_about; auto.
Qed.
Lemma getaddrinfo_spec es host hints : (forall args, In (Set_ args) es -> args = [] \/ proper pton args) -> host <> str "*" ->
  match getaddrinfo pton host hints (history pton es) with
  | Missing => forall args, ~ newest pton es host args
  | Found l => exists args rs, newest pton es host args /\ results pton args rs /\ Forall2 (info_of pton hints) rs l
  | Outside => exists args rs, newest pton es host args /\ results pton args rs /\ (32 < length rs)%nat
  end.
Proof.
  intros PR NS. pose proof (find_newest es host PR NS) as F. unfold getaddrinfo. destruct (find host (history pton es)) as [d|]; [|exact F].
  destruct F as (args & NW & RS). destruct (32 <? length (resolves d))%nat eqn:L; [apply Nat.ltb_lt in L; eauto|]. exists args, (resolves d). split; [exact NW|]. split; [exact RS|].
  clear RS L NW. induction (resolves d) as [|r rs IH]; [constructor|]. cbn [map]. constructor; [|exact IH]. unfold info_of. destruct hints as [[[f t] p]|]; destruct (pton r); cbn; auto.
Qed.
Lemma gethostbyname_spec es host : (forall args, In (Set_ args) es -> args = [] \/ proper pton args) -> host <> str "*" ->
  match gethostbyname pton host (history pton es) with
  | Missing => forall args, ~ newest pton es host args
  | Found (a, c) => exists args rs, newest pton es host args /\ results pton args rs /\ map Some a = filter (fun x => match x with Some _ => true | None => false end) (map pton rs) /\ c = filter (fun r => match pton r with None => true | Some _ => false end) rs
  | Outside => exists args rs, newest pton es host args /\ results pton args rs /\ (32 <= length rs)%nat
  end.
Proof.
  intros PR NS. pose proof (find_newest es host PR NS) as F. unfold gethostbyname. destruct (find host (history pton es)) as [d|]; [|exact F].
  destruct F as (args & NW & RS). destruct (32 <? length (resolves d))%nat eqn:L; [apply Nat.ltb_lt in L; exists args, (resolves d); repeat split; auto; lia|]. apply Nat.ltb_ge in L.
  set (a := flat_map _ (resolves d)). set (c := filter _ (resolves d)).
  assert (LA : (length a + length c = length (resolves d))%nat). { unfold a, c. clear. induction (resolves d) as [|r rs IH]; [reflexivity|]. cbn [flat_map filter]. rewrite app_length. destruct (pton r); cbn [length] in *; lia. }
  assert (EA : map Some a = filter (fun x => match x with Some _ => true | None => false end) (map pton (resolves d))). { unfold a. clear. induction (resolves d) as [|r rs IH]; [reflexivity|]. cbn [flat_map map filter]. rewrite map_app, IH. destruct (pton r); reflexivity. }
  assert (EC : c = filter (fun r => match pton r with None => true | Some _ => false end) (resolves d)). { unfold c. apply filter_ext. intro r. destruct (pton r); reflexivity. }
  destruct (le_lt_dec (length a) 31) as [A1|A1].
  - destruct (le_lt_dec (length c) 31) as [C1|C1].
    + rewrite (read_slots_spec a A1), (read_slots_spec c C1). exists args, (resolves d). auto.
    + assert (LL : (32 <= length (resolves d))%nat) by lia. destruct (read_slots (slots a)) as [x|]; [|eauto 10]. destruct (read_slots (slots c)) as [y|] eqn:RY; [|eauto 10].
      exfalso. unfold slots in RY. replace (32 - length c)%nat with O in RY by lia. cbn [repeat] in RY. rewrite app_nil_r in RY. clear - RY. revert y RY. induction c as [|x c IH]; intros y RY; [discriminate|]. cbn [map read_slots] in RY. destruct (read_slots (map Some c)) as [t|]; [|discriminate]. apply (IH t eq_refl).
  - assert (LL : (32 <= length (resolves d))%nat) by lia. destruct (read_slots (slots a)) as [x|] eqn:RX; [|eauto 10].
    exfalso. unfold slots in RX. replace (32 - length a)%nat with O in RX by lia. cbn [repeat] in RX. rewrite app_nil_r in RX. clear - RX. revert x RX. induction a as [|z a IH]; intros y RY; [discriminate|]. cbn [map read_slots] in RY. destruct (read_slots (map Some a)) as [t|]; [|discriminate]. apply (IH t eq_refl).
Qed.
End F.
