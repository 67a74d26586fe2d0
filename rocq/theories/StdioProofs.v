(** Proofs about captured output. *)
From Coq Require Import List NArith ZArith Bool Arith Lia.
From Verif Require Import Base StrModel FilterModel SockModel StdioModel StdioSpec.
Import ListNotations.
Local Open Scope N_scope.

Lemma cut_c_str t : cut t (c_str t).
Proof.
  induction t as [|c t IH]; cbn [c_str]; [constructor; intros []|]. destruct (N.eqb_spec c 0) as [->|NE]; [apply (Cut_nul [] t); intros []|].
  revert IH. generalize (c_str t). intros y [x H|x r H].
  - apply Cut_all. intros [E|I]; [congruence|auto].
  - apply (Cut_nul (c :: x) r). intros [E|I]; [congruence|auto].
Qed.
Lemma cut_det t x : cut t x -> x = c_str t.
Proof.
  intros [y H|y r H].
  - induction y as [|c y IH]; [reflexivity|]. cbn [c_str]. destruct (N.eqb_spec c 0) as [->|_]; [exfalso; apply H; left; reflexivity|]. f_equal. apply IH. intro I. apply H. right; exact I.
  - induction y as [|c y IH]; [reflexivity|]. cbn [app c_str]. destruct (N.eqb_spec c 0) as [->|_]; [exfalso; apply H; left; reflexivity|]. f_equal. apply IH. intro I. apply H. right; exact I.
Qed.
Lemma low_spec c : (c mod 256 = Z.of_N (low c))%Z.
Proof. unfold low. rewrite Z2N.id; [reflexivity|]. apply Z.mod_pos_bound. lia. Qed.
Lemma low_det c n : (c mod 256 = Z.of_N n)%Z -> n = low c.
Proof. intro E. unfold low. rewrite E, N2Z.id. reflexivity. Qed.

(** the state after a list of writes *)
Fixpoint many (normal : bool) (ws : list (Z * bytes)) (s : io) : io := match ws with [] => s | (fd, b) :: r => many normal r (write normal fd b s) end.
Definition title_of (o : op) (s : io) : io := match o with Title b => {| out_on := out_on s; err_on := err_on s; log_on := log_on s; buffer := buffer s; back := b; capture_length := capture_length s; device := device s |} | _ => s end.
Lemma each_many normal fd l s : each normal fd l s = many normal (map (fun c => (fd, [c])) l) s.
Proof. revert s. induction l as [|c l IH]; intro s; cbn; [reflexivity|apply IH]. Qed.
Lemma step_many normal o s ws : writes o ws -> (forall t, o <> Syslog t) -> fst (step normal o s) = many normal ws (title_of o s).
Proof.
  intros W NS. destruct W; cbn [step fst many title_of map]; try (match goal with H : cut _ _ |- _ => rewrite (cut_det _ _ H) end); try (match goal with H : (_ mod 256 = _)%Z |- _ => rewrite (low_det _ _ H) end); try reflexivity.
  - rewrite firstn_app, <- H, firstn_all, Nat.sub_diag. cbn [firstn]. rewrite app_nil_r. reflexivity.
  - apply each_many.
  - exfalso. apply (NS t). reflexivity.
Qed.
Lemma writes_exist o : plain o -> sound o -> exists ws, writes o ws.
Proof.
  intros P S0. destruct o; try contradiction; try (eexists; constructor; fail).
  - eexists. apply W_fprintf. apply cut_c_str.
  - eexists. apply (W_fputc c fd (low c)). apply low_spec.
  - eexists. apply W_fputs. apply cut_c_str.
  - cbn in S0. exists [(fd, firstn (size * nitems) buf)]. rewrite <- (firstn_skipn (size * nitems) buf) at 1. apply W_fwrite. apply firstn_length_le. exact S0.
  - eexists. apply W_printf. apply cut_c_str.
  - eexists. apply (W_putchar c (low c)). apply low_spec.
  - eexists. apply W_puts. apply cut_c_str.
Qed.

(** ** what is captured *)
Definition on (s : io) (ch : channel) : bool := match ch with Out => out_on s | Err => err_on s | Log => log_on s end.
Definition same (s s' : io) : Prop := out_on s' = out_on s /\ err_on s' = err_on s /\ log_on s' = log_on s.
Lemma pass_same fd b s : same s (pass fd b s) /\ buffer (pass fd b s) = buffer s.
Proof. repeat split. Qed.
Lemma write_buffer normal fd b s : same s (write normal fd b s) /\
  buffer (write normal fd b s) = buffer s ++ (if (out_on s && (fd =? 1)%Z) || (err_on s && (fd =? 2)%Z) then b else []).
Proof.
  unfold write. set (t := if normal || negb ((fd =? 1)%Z || (fd =? 2)%Z) then pass fd b s else s). assert (ST : same s t /\ buffer t = buffer s) by (subst t; destruct (_ || negb _); [apply pass_same|repeat split]).
  destruct ST as [(E1 & E2 & E3) EB]. unfold take, same. rewrite E1, E2, EB. destruct ((out_on s && (fd =? 1)%Z) || (err_on s && (fd =? 2)%Z)); cbn; rewrite ?app_nil_r, ?E1, ?E2, ?E3, ?EB; auto.
Qed.
Lemma many_picked normal sel ws s : (forall ch, sel ch <-> on s ch = true) -> exists x, picked sel ws x /\ buffer (many normal ws s) = buffer s ++ x /\ same s (many normal ws s).
Proof.
  revert s. induction ws as [|(fd, b) ws IH]; intros s H; cbn [many].
  - exists []. split; [constructor|]. rewrite app_nil_r. repeat split.
  - destruct (write_buffer normal fd b s) as [(E1 & E2 & E3) EB]. destruct (IH (write normal fd b s)) as (x & P & B & F1 & F2 & F3).
    { intro ch. rewrite H. destruct ch; cbn [on]; rewrite ?E1, ?E2, ?E3; tauto. }
    rewrite EB in B. destruct ((out_on s && (fd =? 1)%Z) || (err_on s && (fd =? 2)%Z)) eqn:C.
    + exists (b ++ x). rewrite app_assoc. split; [|split; [exact B|repeat split; congruence]]. apply orb_true_iff in C. destruct C as [C|C]; apply andb_true_iff in C; destruct C as [C1 C2]; apply Z.eqb_eq in C2; subst fd.
      * apply (P_take _ 1%Z b Out); [left; auto|apply H; exact C1|exact P].
      * apply (P_take _ 2%Z b Err); [right; auto|apply H; exact C1|exact P].
    + rewrite app_nil_r in B. exists x. split; [|split; [exact B|repeat split; congruence]]. apply P_skip; [|exact P]. apply orb_false_iff in C. destruct C as [C1 C2].
      intros ch [[-> ->]|[-> ->]] Sl; apply H in Sl; cbn [on] in Sl; rewrite Sl in *; discriminate.
Qed.
Lemma step_says normal sel o s : plain o -> sound o -> (forall ch, sel ch <-> on s ch = true) -> exists x, says sel o x /\ buffer (fst (step normal o s)) = buffer s ++ x /\ same s (fst (step normal o s)).
Proof.
  intros P S0 H. assert (NS : (exists t, o = Syslog t) \/ forall t, o <> Syslog t) by (destruct o; try (right; discriminate); left; eauto). destruct NS as [[t ->]|NS].
  - cbn [step fst]. destruct (log_on s) eqn:L.
    + exists (c_str t). split; [apply Says_log; [apply cut_c_str|apply H; exact L]|]. cbn. rewrite <- L. repeat split.
    + exists []. split; [apply Says_no_log; intro Sl; apply H in Sl; cbn in Sl; congruence|]. rewrite app_nil_r. repeat split.
  - destruct (writes_exist o P S0) as [ws W]. rewrite (step_many normal o s ws W NS).
    assert (T : same s (title_of o s) /\ buffer (title_of o s) = buffer s) by (destruct o; repeat split). destruct T as [(T1 & T2 & T3) TB].
    destruct (many_picked normal sel ws (title_of o s)) as (x & PX & B & F1 & F2 & F3).
    { intro ch. rewrite H. destruct ch; cbn [on]; rewrite ?T1, ?T2, ?T3; tauto. }
    exists x. split; [exact (Says_writes sel o ws x NS W PX)|]. split; [congruence|repeat split; congruence].
Qed.
Lemma run_says normal sel l s : Forall plain l -> Forall sound l -> (forall ch, sel ch <-> on s ch = true) -> exists x, says_all sel l x /\ buffer (fst (run normal l s)) = buffer s ++ x /\ same s (fst (run normal l s)).
Proof.
  intros P S0. revert s. induction P as [|o l Po P IH]; intros s H; cbn [run].
  - exists []. split; [constructor|]. rewrite app_nil_r. repeat split.
  - inversion S0 as [|? ? So Sl]. subst. destruct (step_says normal sel o s Po So H) as (x & X & B & F1 & F2 & F3). destruct (step normal o s) as [s1 r1] eqn:E. cbn [fst] in *.
    destruct (IH Sl s1) as (y & Y & B2 & G1 & G2 & G3). { intro ch. rewrite H. destruct ch; cbn [on]; rewrite ?F1, ?F2, ?F3; tauto. }
    destruct (run normal l s1) as [s2 rs]. cbn [fst] in *. exists (x ++ y). split; [constructor; assumption|]. split; [rewrite B2, B, app_assoc; reflexivity|repeat split; congruence].
Qed.
Lemma says_det sel o x y : says sel o x -> says sel o y -> x = y.
Proof.
  assert (WD : forall o v w, writes o v -> writes o w -> v = w).
  { intros o' v w V. destruct V; intro W; inversion W; subst; repeat match goal with H : cut _ _ |- _ => apply cut_det in H end; repeat match goal with H : (_ mod 256 = _)%Z |- _ => apply low_det in H end; subst; try reflexivity.
    match goal with A : length ?p = _, B : length ?q = _, E : _ ++ _ = _ ++ _ |- _ => assert (F : p = q); [apply (f_equal (firstn (length p))) in E; rewrite firstn_app, firstn_all, Nat.sub_diag in E; rewrite A, <- B in E; rewrite firstn_app, firstn_all, Nat.sub_diag in E; cbn [firstn] in E; rewrite !app_nil_r in E; congruence|subst; reflexivity] end. }
  assert (PD : forall ws a b, picked sel ws a -> picked sel ws b -> a = b).
  { intros ws. induction ws as [|(fd, b0) ws IH]; intros a b A B; inversion A; inversion B; subst; auto.
    - f_equal. auto.
    - exfalso. match goal with F : forall _, of_fd _ _ -> ~ _, G : of_fd _ _, Q : sel _ |- _ => exact (F _ G Q) end.
    - exfalso. match goal with F : forall _, of_fd _ _ -> ~ _, G : of_fd _ _, Q : sel _ |- _ => exact (F _ G Q) end. }
  intros X Y. inversion X; inversion Y; subst; try congruence; try (exfalso; match goal with H : forall t, Syslog _ <> Syslog t |- _ => eapply H; reflexivity end).
  - match goal with A : writes o ?v, B : writes o ?w |- _ => rewrite (WD o v w A B) in * end. eauto.
  - match goal with E : Syslog _ = Syslog _ |- _ => injection E as <- end. repeat match goal with H : cut _ _ |- _ => apply cut_det in H end. congruence.
Qed.
Lemma says_all_det sel l x y : says_all sel l x -> says_all sel l y -> x = y.
Proof. intro X. revert y. induction X as [|o x l y' H X IH]; intros y Y; inversion Y; subst; [reflexivity|]. f_equal; [eapply says_det; eassumption|auto]. Qed.
(** the streams chosen *)
Lemma case_prefix_spec p s : case_prefix p s = true <-> exists b c, s = b ++ c /\ fold_str true b = fold_str true p.
Proof.
  revert s. induction p as [|a p IH]; intro s; cbn [case_prefix].
  - split; [intros _; exists [], s; auto|reflexivity].
  - destruct s as [|x s]; [split; [discriminate|]; intros (b & c & E & F); destruct b; [discriminate F|discriminate E]|]. rewrite andb_true_iff, N.eqb_eq, IH, !tolower_lower. split.
    + intros [E (b & c & -> & F)]. exists (x :: b), c. split; [reflexivity|]. unfold fold_str, fold_char in *. cbn [map]. congruence.
    + intros (b & c & E & F). destruct b as [|y b]; [discriminate F|]. injection E as -> ->. unfold fold_str, fold_char in *. cbn [map] in F. injection F as F1 F2. split; [congruence|]. exists b, c. auto.
Qed.
Lemma from_key_spec s k : (exists t, from_key s k = Some t) <-> exists a b c, s = a ++ b ++ c /\ fold_str true b = fold_str true k.
Proof.
  induction s as [|x s IH]; cbn [from_key].
  - destruct (case_prefix k []) eqn:P.
    + split; [|eauto]. intros _. apply case_prefix_spec in P. destruct P as (b & c & E & F). exists [], b, c. auto.
    + split; [intros [t E]; discriminate|]. intros (a & b & c & E & F). destruct a; [|discriminate]. assert (case_prefix k [] = true) by (apply case_prefix_spec; exists b, c; auto). congruence.
  - destruct (case_prefix k (x :: s)) eqn:P.
    + split; [|eauto]. intros _. apply case_prefix_spec in P. destruct P as (b & c & E & F). exists [], b, c. auto.
    + rewrite IH. split; intros (a & b & c & E & F).
      * exists (x :: a), b, c. subst s. auto.
      * destruct a as [|y a]; [assert (case_prefix k (x :: s) = true) by (apply case_prefix_spec; exists b, c; auto); congruence|]. injection E as -> ->. exists a, b, c. auto.
Qed.
Lemma keyvalue_spec s k : (match get_keyvalue s k with Some _ => true | None => false end) = true <-> exists a b c, s = a ++ b ++ c /\ fold_str true b = fold_str true k.
Proof.
  rewrite <- from_key_spec. unfold get_keyvalue. destruct (from_key s k) as [t|]; [|split; [discriminate|intros [t E]; discriminate]]. split; [eauto|]. intros _.
  destruct (strip_left (skipn (length k) t)) as [|c v]; [reflexivity|]. destruct c as [|c]; [reflexivity|]. do 7 (destruct c as [c|c|]; try reflexivity).
Qed.
Lemma begin_on normal type s ch : selects type ch <-> on (fst (step normal (Begin type) s)) ch = true.
Proof.
  unfold selects. rewrite <- (keyvalue_spec type (key ch)). destruct ch; cbn [step fst on out_on err_on log_on key]; rewrite orb_true_iff; (destruct type as [|c t]; [split; auto|]); split; intros [H|H]; try discriminate H; auto.
Qed.
Lemma run_app normal l m s : run normal (l ++ m) s = let '(s1, x) := run normal l s in let '(s2, y) := run normal m s1 in (s2, x ++ y).
Proof.
  revert s. induction l as [|o l IH]; intro s; cbn [app run].
  - destruct (run normal m s). reflexivity.
  - destruct (step normal o s) as [s1 r]. rewrite IH. destruct (run normal l s1) as [s2 x]. destruct (run normal m s2) as [s3 y]. reflexivity.
Qed.
Lemma captured normal type l s : Forall plain l -> Forall sound l ->
  exists rs said text, snd (run normal (Begin type :: l ++ [End_]) s) = rs ++ [Text text] /\ says_all (selects type) l said /\ cut said text.
Proof.
  intros P S0. cbn [run]. destruct (step normal (Begin type) s) as [s1 r1] eqn:E1. rewrite run_app.
  destruct (run_says normal (selects type) l s1 P S0) as (x & X & B & _). { intro ch. rewrite (begin_on normal type s ch), E1. reflexivity. }
  destruct (run normal l s1) as [s2 r2] eqn:E2. cbn [fst] in B. cbn [run step snd]. exists (r1 :: r2), x, (c_str (buffer s2 ++ [0])). split; [reflexivity|]. split; [exact X|].
  rewrite B. replace (buffer s1) with (@nil byte) by (cbn [step] in E1; injection E1 as <- <-; reflexivity). cbn [app].
  replace (c_str (x ++ [0])) with (c_str x); [apply cut_c_str|]. clear. induction x as [|c x IH]; [reflexivity|]. cbn [app c_str]. destruct (c =? 0); [reflexivity|]. rewrite IH. reflexivity.
Qed.

(** ** what is shown *)
Lemma redirect_eq fd b : ((if (fd =? -21371647)%Z then 1 else fd)%Z, b) = redirect (fd, b).
Proof. unfold redirect. cbn [fst snd]. destruct (Z.eqb_spec fd (-21371647)), (Z.eq_dec fd (-21371647)); congruence. Qed.
Lemma take_device fd b s : device (take fd b s) = device s /\ back (take fd b s) = back s.
Proof. unfold take. destruct (_ || _); auto. Qed.
Definition is_user (fd : Z) : bool := (fd =? 1)%Z || (fd =? 2)%Z.
Lemma is_user_spec fd : is_user fd = true <-> user fd.
Proof. unfold is_user, user. rewrite orb_true_iff, !Z.eqb_eq. tauto. Qed.
Lemma redirect_user fd b : user fd -> redirect (fd, b) = (fd, b).
Proof. intro U. unfold redirect. cbn [fst snd]. destruct (Z.eq_dec fd (-21371647)) as [->|_]; [destruct U; discriminate|reflexivity]. Qed.
Lemma write_device normal fd b s : device (write normal fd b s) = device s ++ (if normal || negb (is_user fd) then (if is_user fd && back s then [(fd, [10])] else []) ++ [redirect (fd, b)] else []) /\
  back (write normal fd b s) = if normal && is_user fd then false else back s.
Proof.
  unfold write. change ((fd =? 1)%Z || (fd =? 2)%Z) with (is_user fd). destruct (take_device fd b (if normal || negb (is_user fd) then pass fd b s else s)) as [-> ->].
  unfold pass. change ((fd =? 1)%Z || (fd =? 2)%Z) with (is_user fd). rewrite redirect_eq. destruct normal, (is_user fd), (back s) eqn:BK; cbn; rewrite ?app_nil_r, ?BK; auto.
Qed.
Lemma many_plain normal ws s : back s = false -> device (many normal ws s) = device s ++ map redirect (filter (fun w => normal || negb (is_user (fst w))) ws) /\ back (many normal ws s) = false.
Proof.
  revert s. induction ws as [|(fd, b) ws IH]; intros s H; cbn [many filter map fst]; [rewrite app_nil_r; auto|].
  destruct (write_device normal fd b s) as [D K]. destruct (IH (write normal fd b s)) as [-> ->]; [rewrite K, H; destruct (normal && is_user fd); reflexivity|]. split; [|reflexivity]. rewrite D, H, <- app_assoc, andb_false_r. destruct (normal || negb (is_user fd)); reflexivity.
Qed.
Lemma many_parted ws s : back s = true -> exists x, parted ws x /\ device (many true ws s) = device s ++ x /\ (back (many true ws s) = true -> forall w, In w ws -> ~ user (fst w)).
Proof.
  revert s. induction ws as [|(fd, b) ws IH]; intros s H; cbn [many].
  - exists []. split; [apply Pt_none; intros w []|]. split; [rewrite app_nil_r; reflexivity|intros _ w []].
  - destruct (write_device true fd b s) as [D K]. cbn [orb andb] in D, K. rewrite H, andb_true_r in D. destruct (is_user fd) eqn:U.
    + destruct (many_plain true ws (write true fd b s) K) as [E1 E2]. exists ((fd, [10]) :: (fd, b) :: map redirect ws). split.
      * apply is_user_spec in U. apply (Pt_first [] fd b ws); [intros w []|exact U].
      * rewrite E1, D, <- app_assoc, E2. rewrite redirect_user by (apply is_user_spec; exact U). split; [|discriminate]. cbn [app orb]. replace (filter (fun _ => true) ws) with ws; [reflexivity|]. clear. induction ws as [|w ws IH]; [reflexivity|]. cbn [filter]. rewrite <- IH. reflexivity.
    + rewrite H in K. destruct (IH (write true fd b s) K) as (x & P & E & B). assert (NU : ~ user fd) by (rewrite <- is_user_spec, U; discriminate). exists (redirect (fd, b) :: x). rewrite E, D, <- app_assoc. split; [|split; [reflexivity|intros Bk w [<-|I]; [exact NU|apply (B Bk w I)]]].
      inversion P as [ws' F E1 E2|a fd' b' c F U' E1 E2]; subst.
      * apply (Pt_none ((fd, b) :: ws)). intros w [<-|I]; auto.
      * apply (Pt_first ((fd, b) :: a) fd' b' c); auto. intros w [<-|I]; auto.
Qed.
Lemma many_app normal v w s : many normal (v ++ w) s = many normal w (many normal v s).
Proof. revert s. induction v as [|(fd, b) v IH]; intro s; [reflexivity|]. apply IH. Qed.
Definition silent (s t : io) : Prop := device t = device s /\ back t = back s.
(** writes of a run, captures included *)
Lemma many_silent normal ws s t : silent s t -> silent (many normal ws s) (many normal ws t).
Proof.
  revert s t. induction ws as [|(fd, b) ws IH]; intros s t H; [exact H|]. cbn [many]. apply IH. destruct H as [H1 H2], (write_device normal fd b s) as [D1 K1], (write_device normal fd b t) as [D2 K2]. unfold silent. rewrite D1, D2, K1, K2, H1, H2. auto.
Qed.
Lemma run_many normal l s ws : Forall no_title l -> writes_all (filter (fun o => match o with Begin _ | End_ => false | _ => true end) l) ws -> silent (many normal ws s) (fst (run normal l s)).
Proof.
  intros T W. revert s ws W. induction T as [|o l To T IH]; intros s ws W; [inversion W; subst; split; reflexivity|].
  assert (TR : forall t, fst (run normal (o :: l) t) = fst (run normal l (fst (step normal o t)))) by (intro t; cbn [run]; destruct (step normal o t) as [s1 r1]; cbn [fst]; destruct (run normal l s1); reflexivity). rewrite TR.
  assert (OTHER : (filter (fun o => match o with Begin _ | End_ => false | _ => true end) (o :: l) = filter (fun o => match o with Begin _ | End_ => false | _ => true end) l /\ silent s (fst (step normal o s))) \/
     (filter (fun o => match o with Begin _ | End_ => false | _ => true end) (o :: l) = o :: filter (fun o => match o with Begin _ | End_ => false | _ => true end) l)) by (destruct o; try (right; reflexivity); left; split; try reflexivity; split; reflexivity).
  destruct OTHER as [[E SL]|E]; rewrite E in W.
  - destruct (IH (fst (step normal o s)) ws W) as [D K]. destruct (many_silent normal ws s _ SL) as [D' K']. split; congruence.
  - inversion W as [|? x ? y Wo Wl]. subst. rewrite many_app. destruct (IH (fst (step normal o s)) y Wl) as [D K].
    assert (SO : silent (many normal x s) (fst (step normal o s))).
    { assert (NS : (exists t, o = Syslog t) \/ forall t, o <> Syslog t) by (destruct o; try (right; discriminate); left; eauto). destruct NS as [[t ->]|NS].
      - inversion Wo. subst. cbn [many step fst]. destruct (log_on s); split; reflexivity.
      - rewrite (step_many normal o s x Wo NS). destruct o; try contradiction; split; reflexivity. }
    destruct (many_silent normal y _ _ SO) as [D' K']. split; congruence.
Qed.
Lemma shown_plain normal l s ws : Forall no_title l -> writes_all (filter (fun o => match o with Begin _ | End_ => false | _ => true end) l) ws -> back s = false ->
  device (fst (run normal l s)) = device s ++ map redirect (filter (fun w => normal || negb (is_user (fst w))) ws).
Proof. intros T W B. destruct (run_many normal l s ws T W) as [D _]. rewrite D. apply many_plain. exact B. Qed.
Lemma filter_all {X} (f : X -> bool) l : (forall x, In x l -> f x = true) -> filter f l = l.
Proof. induction l as [|x l IH]; intro H; [reflexivity|]. cbn [filter]. rewrite (H x (or_introl eq_refl)), IH; [reflexivity|]. intros y I. apply H. right; exact I. Qed.
Lemma shown_normal l s ws : Forall no_title l -> writes_all (filter (fun o => match o with Begin _ | End_ => false | _ => true end) l) ws -> back s = false ->
  device (fst (run true l s)) = device s ++ map redirect ws.
Proof. intros T W B. rewrite (shown_plain true l s ws T W B). rewrite filter_all; [reflexivity|reflexivity]. Qed.
Lemma shown_titled l s ws : Forall no_title l -> writes_all (filter (fun o => match o with Begin _ | End_ => false | _ => true end) l) ws -> back s = true ->
  exists x, parted ws x /\ device (fst (run true l s)) = device s ++ x.
Proof. intros T W B. destruct (run_many true l s ws T W) as [D _]. destruct (many_parted ws s B) as (x & P & E & _). exists x. rewrite D, E. auto. Qed.
Lemma shown_quiet l s ws : Forall no_title l -> writes_all (filter (fun o => match o with Begin _ | End_ => false | _ => true end) l) ws ->
  exists v, device (fst (run false l s)) = device s ++ map redirect v /\ (forall w, In w v <-> In w ws /\ ~ user (fst w)) /\ v = filter (fun w => negb (is_user (fst w))) ws.
Proof.
  intros T W. destruct (run_many false l s ws T W) as [D _]. exists (filter (fun w => negb (is_user (fst w))) ws). split; [|split; [|reflexivity]].
  - rewrite D. clear. revert s. induction ws as [|(fd, b) ws IH]; intro s; cbn [many filter map]; [rewrite app_nil_r; reflexivity|]. rewrite IH. destruct (write_device false fd b s) as [-> _]. rewrite <- app_assoc. cbn [orb fst]. destruct (is_user fd); reflexivity.
  - intro w. rewrite filter_In, negb_true_iff, <- is_user_spec. destruct (is_user (fst w)); intuition congruence.
Qed.
Lemma same_results normal normal' l s : snd (run normal l s) = snd (run normal' l s).
Proof.
  assert (ST : forall o s t, out_on s = out_on t -> err_on s = err_on t -> log_on s = log_on t -> buffer s = buffer t ->
    let '(s1, r) := step normal o s in let '(t1, r') := step normal' o t in r = r' /\ out_on s1 = out_on t1 /\ err_on s1 = err_on t1 /\ log_on s1 = log_on t1 /\ buffer s1 = buffer t1).
  { assert (WR : forall fd b s t, out_on s = out_on t -> err_on s = err_on t -> log_on s = log_on t -> buffer s = buffer t -> out_on (write normal fd b s) = out_on (write normal' fd b t) /\ err_on (write normal fd b s) = err_on (write normal' fd b t) /\ log_on (write normal fd b s) = log_on (write normal' fd b t) /\ buffer (write normal fd b s) = buffer (write normal' fd b t)).
    { intros fd b s0 t E1 E2 E3 E4. destruct (write_buffer normal fd b s0) as [(A1 & A2 & A3) A4], (write_buffer normal' fd b t) as [(B1 & B2 & B3) B4]. rewrite A1, A2, A3, A4, B1, B2, B3, B4, E1, E2, E3, E4. auto. }
    assert (EA : forall fd x s t, out_on s = out_on t -> err_on s = err_on t -> log_on s = log_on t -> buffer s = buffer t -> out_on (each normal fd x s) = out_on (each normal' fd x t) /\ err_on (each normal fd x s) = err_on (each normal' fd x t) /\ log_on (each normal fd x s) = log_on (each normal' fd x t) /\ buffer (each normal fd x s) = buffer (each normal' fd x t)).
    { intros fd x. induction x as [|c x IH]; intros s0 t E1 E2 E3 E4; [auto|]. cbn [each]. destruct (WR fd [c] s0 t E1 E2 E3 E4) as (G1 & G2 & G3 & G4). apply IH; assumption. }
    intros o s0 t E1 E2 E3 E4. destruct o; cbn [step]; try (split; [reflexivity|apply WR; assumption]); try (split; [reflexivity|cbn; auto; fail]).
    - split; [reflexivity|]. destruct (WR 1%Z (c_str s1) s0 t E1 E2 E3 E4) as (G1 & G2 & G3 & G4). apply WR; assumption.
    - split; [reflexivity|]. rewrite E3. destruct (log_on t) eqn:L; cbn; rewrite ?E4; repeat split; congruence.
    - cbn. rewrite E4. auto. }
  assert (G : forall l s t, out_on s = out_on t -> err_on s = err_on t -> log_on s = log_on t -> buffer s = buffer t -> snd (run normal l s) = snd (run normal' l t)).
  { clear l s. induction l as [|o l IH]; intros s t E1 E2 E3 E4; [reflexivity|]. cbn [run]. specialize (ST o s t E1 E2 E3 E4). destruct (step normal o s) as [s1 r1], (step normal' o t) as [t1 r2]. destruct ST as (-> & F1 & F2 & F3 & F4).
    specialize (IH s1 t1 F1 F2 F3 F4). destruct (run normal l s1), (run normal' l t1). cbn [snd] in *. congruence. }
  apply G; reflexivity.
Qed.
Lemma returned normal o s fd b : writes o [(fd, b)] -> match o with Write _ _ | Fprintf _ _ | Fputs _ _ | Printf _ => snd (step normal o s) = Int (Z.of_nat (length b)) | Fputc c _ | Putchar c => (0 <= c < 256)%Z -> exists n, b = [n] /\ snd (step normal o s) = Int (Z.of_N n) | _ => True end.
Proof.
  intro W. inversion W; subst; cbn [step snd]; try (match goal with H : cut _ _ |- _ => rewrite (cut_det _ _ H) end); auto; intro B; exists n; (split; [reflexivity|]); rewrite Z.mod_small in * by exact B; congruence.
Qed.
