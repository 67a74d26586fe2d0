(** Proofs about sockets. *)
From Coq Require Import List NArith ZArith Bool Arith Lia Sorting.Permutation Sorting.Sorted.
From Verif Require Import Base GlobModel GlobSpec GlobProofs FilterModel SockModel SockSpec.
Import ListNotations.
Local Open Scope N_scope.

Lemma selects_glob p s : cstr p -> cstr s -> (selects p s = true <-> glob false p s).
Proof.
  intros P Q. unfold selects. destruct (wildcard_match_correct false p s P Q (S (S (length p) * (S (length s) * S (length s)) + length s))) as (b & E & B); [lia|]. rewrite E. exact B.
Qed.
Lemma pick_first loc l p r : pick loc l = Some (p, r) <-> exists b c, l = b ++ p :: c /\ r = b ++ c /\ selects (p_to p) loc = true /\ forall q, In q b -> selects (p_to q) loc = false.
Proof.
  revert p r. induction l as [|x l IH]; intros p r; cbn [pick].
  - split; [discriminate|]. intros (b & c & E & _). destruct b; discriminate.
  - destruct (selects (p_to x) loc) eqn:Sx.
    + split.
      * intro E. injection E as <- <-. exists [], l. repeat split; auto. contradiction.
      * intros (b & c & E & -> & S1 & S2). destruct b as [|y b]; cbn [app] in *; injection E as -> ->; [reflexivity|]. rewrite (S2 y (or_introl eq_refl)) in Sx. discriminate.
    + split.
      * destruct (pick loc l) as [(q, r')|]; [|discriminate]. intro E. injection E as <- <-. destruct (proj1 (IH q r') eq_refl) as (b & c & -> & -> & S1 & S2). exists (x :: b), c. repeat split; auto. intros z [<-|I]; auto.
      * intros (b & c & E & -> & S1 & S2). destruct b as [|y b]; cbn [app] in *; injection E as -> ->; [congruence|].
        rewrite (proj2 (IH p (b ++ c))); [reflexivity|]. exists b, c. repeat split; auto. intros q I. apply S2. right; exact I.
Qed.
Lemma pick_none loc l : pick loc l = None <-> forall q, In q l -> selects (p_to q) loc = false.
Proof.
  induction l as [|x l IH]; cbn [pick]; [split; [contradiction|reflexivity]|]. destruct (selects (p_to x) loc) eqn:Sx.
  - split; [discriminate|]. intro H. rewrite (H x (or_introl eq_refl)) in Sx. discriminate.
  - destruct (pick loc l) as [(q, r)|] eqn:P; split; try discriminate; try reflexivity.
    + intro H. assert (E : Some (q, r) = None) by (apply IH; intros z I; apply H; right; exact I). discriminate.
    + intros _ z [<-|I]; [exact Sx|]. apply IH; auto.
Qed.

(** ** sending *)
Definition triple (p : packet) : bytes * (bytes * bytes) := (p_from p, (p_to p, p_data p)).
Lemma peer_first fd l : first_link l fd (peer fd l).
Proof.
  unfold first_link, peer. induction l as [|(f, a) l IH]; [right; split; [contradiction|reflexivity]|]. cbn [find fst snd]. destruct (Z.eqb_spec f fd) as [->|NE].
  - left. exists [], l. split; [reflexivity|contradiction].
  - destruct IH as [(b & c & E & F)|(F & E)].
    + left. exists ((f, a) :: b), c. split; [cbn [app]; rewrite <- E; reflexivity|]. intros x [<-|I]; auto.
    + right. split; [|exact E]. intros x [<-|I]; auto.
Qed.
Lemma step_send o s s1 r : step o s = Ok s1 r ->
  exists x, sends (sockets s) [(o, r)] x /\ map triple (outgoing s) ++ x = map triple (fetched [(o, r)]) ++ map triple (outgoing s1) /\ sockets s1 = links (sockets s) [(o, r)].
Proof.
  intro E. destruct o as [fd data|loc dest data|loc block len|loc block len|loc block fd|fd loc block dest|from to data|]; cbn [step] in E.
  - injection E as <- <-. eexists. split; [constructor; [apply peer_first|constructor]|]. split; [|reflexivity]. cbn [fetched flat_map snd app put_outgoing outgoing]. rewrite map_app. reflexivity.
  - injection E as <- <-. eexists. split; [apply Sd_sendto; constructor|]. split; [|reflexivity]. cbn [fetched flat_map snd app put_outgoing outgoing]. rewrite map_app. reflexivity.
  - unfold recv, read_incoming in E. destruct (pick loc (incoming s)) as [(p, r')|].
    + destruct (len <? length (p_data p))%nat; [discriminate|]. injection E as <- <-. exists []. split; [apply Sd_other; [discriminate|discriminate|constructor]|]. split; [apply app_nil_r|reflexivity].
    + destruct block; [discriminate|]. injection E as <- <-. exists []. split; [apply Sd_other; [discriminate|discriminate|constructor]|]. split; [apply app_nil_r|reflexivity].
  - unfold recv, read_incoming in E. destruct (pick loc (incoming s)) as [(p, r')|].
    + destruct (len <? length (p_data p))%nat; [discriminate|]. injection E as <- <-. exists []. split; [apply Sd_other; [discriminate|discriminate|constructor]|]. split; [apply app_nil_r|reflexivity].
    + destruct block; [discriminate|]. injection E as <- <-. exists []. split; [apply Sd_other; [discriminate|discriminate|constructor]|]. split; [apply app_nil_r|reflexivity].
  - unfold read_incoming in E. destruct (pick loc (incoming s)) as [(p, r')|].
    + injection E as <- <-. exists []. split; [apply Sd_other; [discriminate|discriminate|constructor]|]. unfold keep. destruct (p_data p); (split; [apply app_nil_r|reflexivity]).
    + destruct block; [discriminate|]. injection E as <- <-. exists []. split; [apply Sd_other; [discriminate|discriminate|constructor]|]. split; [apply app_nil_r|reflexivity].
  - unfold read_incoming in E. destruct (pick loc (incoming (with_socket (fd, (loc, dest)) s))) as [(p, r')|].
    + injection E as <- <-. exists []. split; [apply Sd_other; [discriminate|discriminate|constructor]|]. unfold keep. destruct (p_data p); (split; [apply app_nil_r|reflexivity]).
    + destruct block; [discriminate|]. injection E as <- <-. exists []. split; [apply Sd_other; [discriminate|discriminate|constructor]|]. split; [apply app_nil_r|reflexivity].
  - injection E as <- <-. exists []. split; [apply Sd_other; [discriminate|discriminate|constructor]|]. split; [apply app_nil_r|reflexivity].
  - exists []. destruct (outgoing s) as [|p r'] eqn:O; injection E as <- <-; (split; [apply Sd_other; [discriminate|discriminate|constructor]|]); cbn [fetched flat_map snd app map outgoing]; rewrite ?O, ?app_nil_r; auto.
Qed.
Lemma sends_app k l m x y : sends k l x -> sends (links k l) m y -> sends k (l ++ m) (x ++ y).
Proof.
  induction 1 as [k|k fd data r l x a F H IH|k loc dest data r l x H IH|k o r l x N1 N2 H IH]; intro M; cbn [app].
  - exact M.
  - constructor; [exact F|]. apply IH. exact M.
  - constructor. apply IH. exact M.
  - apply Sd_other; auto. apply IH. replace (links (links k [(o, r)]) l) with (links k ((o, r) :: l)); [exact M|]. destruct o, r; reflexivity.
Qed.
Lemma links_app k l m : links k (l ++ m) = links (links k l) m.
Proof. revert k. induction l as [|(o, r) l IH]; intro k; [reflexivity|]. cbn [app links]. destruct o, r; apply IH. Qed.
Lemma runs_send s l s' : runs s l s' ->
  exists x, sends (sockets s) l x /\ map triple (outgoing s) ++ x = map triple (fetched l) ++ map triple (outgoing s') /\ sockets s' = links (sockets s) l.
Proof.
  induction 1 as [s|s o r s1 l s2 E R (y & S2 & E2 & L2)].
  - exists []. split; [constructor|]. split; [apply app_nil_r|reflexivity].
  - destruct (step_send _ _ _ _ E) as (x & S1 & E1 & L1). exists (x ++ y). rewrite L1 in *. split; [apply (sends_app _ [(o, r)] l x y S1 S2)|]. split.
    + replace (fetched ((o, r) :: l)) with (fetched [(o, r)] ++ fetched l) by (unfold fetched; cbn [flat_map]; rewrite app_nil_r; reflexivity).
      rewrite app_assoc, E1, <- app_assoc, E2, map_app, <- app_assoc. reflexivity.
    + rewrite L2. rewrite <- links_app. reflexivity.
Qed.
Lemma start_send s l s' : runs (start s) l s' -> exists x, sends (sockets s) l x /\ x = map triple (fetched l ++ outgoing s').
Proof. intro R. destruct (runs_send _ _ _ R) as (x & S1 & E1 & _). exists x. split; [exact S1|]. rewrite map_app. exact E1. Qed.

(** ** receiving *)
Definition ordered (l : list packet) : Prop := StronglySorted (fun p q => pid p < pid q)%nat l.
Definition below (n : nat) (l : list packet) : Prop := Forall (fun p => pid p < n)%nat l.
(** what a step does to the packets on the way *)
Lemma step_in o s s1 r : step o s = Ok s1 r ->
  exists nw, Forall2 carries (injected [(o, r)]) nw /\ Permutation (incoming s ++ nw) (received [(o, r)] ++ openers [(o, r)] ++ incoming s1) /\
    Forall (fun p => pid p >= fresh s)%nat nw /\ below (fresh s1) nw /\ (fresh s <= fresh s1)%nat /\ ordered nw.
Proof.
  assert (PK : forall loc l p r', pick loc l = Some (p, r') -> Permutation l (p :: r')) by (intros loc l p r' P; apply pick_first in P; destruct P as (b & c & -> & -> & _); apply Permutation_sym, Permutation_middle).
  assert (NIL : forall s s1 o r, injected [(o, r)] = [] -> Permutation (incoming s) (received [(o, r)] ++ openers [(o, r)] ++ incoming s1) -> fresh s1 = fresh s ->
    exists nw, Forall2 carries (injected [(o, r)]) nw /\ Permutation (incoming s ++ nw) (received [(o, r)] ++ openers [(o, r)] ++ incoming s1) /\ Forall (fun p => pid p >= fresh s)%nat nw /\ below (fresh s1) nw /\ (fresh s <= fresh s1)%nat /\ ordered nw).
  { intros t t1 o' r' E P F. exists []. rewrite app_nil_r, E. repeat split; auto; try constructor. lia. }
  intro E. destruct o as [fd data|loc dest data|loc block len|loc block len|loc block fd|fd loc block dest|from to data|]; cbn [step] in E.
  - injection E as <- <-. exists []. cbn. rewrite app_nil_r. repeat split; auto; try constructor. 
  - injection E as <- <-. exists []. cbn. rewrite app_nil_r. repeat split; auto; try constructor.
  - unfold recv, read_incoming in E. destruct (pick loc (incoming s)) as [(p, r')|] eqn:P.
    + destruct (len <? length (p_data p))%nat; [discriminate|]. injection E as <- <-. apply NIL; try reflexivity. cbn. apply (PK _ _ _ _ P).
    + destruct block; [discriminate|]. injection E as <- <-. apply NIL; reflexivity.
  - unfold recv, read_incoming in E. destruct (pick loc (incoming s)) as [(p, r')|] eqn:P.
    + destruct (len <? length (p_data p))%nat; [discriminate|]. injection E as <- <-. apply NIL; try reflexivity. cbn. apply (PK _ _ _ _ P).
    + destruct block; [discriminate|]. injection E as <- <-. apply NIL; reflexivity.
  - unfold read_incoming in E. destruct (pick loc (incoming s)) as [(p, r')|] eqn:P.
    + injection E as <- <-. apply NIL; try reflexivity.
      * cbn. unfold keep. destruct (p_data p); cbn; apply (PK _ _ _ _ P).
      * unfold keep. destruct (p_data p); reflexivity.
    + destruct block; [discriminate|]. injection E as <- <-. apply NIL; reflexivity.
  - unfold read_incoming in E. cbn [with_socket incoming] in E. destruct (pick loc (incoming s)) as [(p, r')|] eqn:P.
    + injection E as <- <-. apply NIL; try reflexivity.
      * cbn. unfold keep. destruct (p_data p); cbn; apply (PK _ _ _ _ P).
      * unfold keep. destruct (p_data p); reflexivity.
    + destruct block; [discriminate|]. injection E as <- <-. apply NIL; reflexivity.
  - injection E as <- <-. eexists [_]. split; [|split; [cbn [received openers flat_map snd app put_incoming incoming]; reflexivity|]].
    + constructor; [|constructor]. repeat split. cbn [fst p_from]. destruct from; [congruence|reflexivity].
    + repeat split; cbn [put_incoming fresh]; try lia; repeat constructor; cbn; lia.
  - destruct (outgoing s) as [|p r'] eqn:O; injection E as <- <-; apply NIL; reflexivity.
Qed.
Lemma flat_one {X Y} (f : X -> list Y) x l : flat_map f (x :: l) = flat_map f [x] ++ flat_map f l.
Proof. cbn [flat_map]. rewrite app_nil_r. reflexivity. Qed.
Lemma sorted_app a b n : ordered a -> ordered b -> below n a -> Forall (fun p => pid p >= n)%nat b -> ordered (a ++ b).
Proof.
  intros A B BA GB. induction A as [|x a A IH F]; [exact B|]. cbn [app]. inversion BA. subst. constructor; [apply IH; auto|]. apply Forall_app. split; [exact F|]. eapply Forall_impl; [|exact GB]. cbn. intros; lia.
Qed.
Lemma runs_in s l s' : runs s l s' ->
  exists nw, Forall2 carries (injected l) nw /\ Permutation (incoming s ++ nw) (received l ++ openers l ++ incoming s') /\
    Forall (fun p => pid p >= fresh s)%nat nw /\ below (fresh s') nw /\ (fresh s <= fresh s')%nat /\ ordered nw.
Proof.
  induction 1 as [s|s o r s1 l s2 E R (n2 & B2 & P2 & G2 & L2 & F2 & O2)].
  - exists []. cbn. rewrite app_nil_r. repeat split; auto; constructor.
  - destruct (step_in _ _ _ _ E) as (n1 & B1 & P1 & G1 & L1 & F1 & O1). exists (n1 ++ n2). repeat split.
    + unfold injected in *. rewrite flat_one. apply Forall2_app; assumption.
    + rewrite app_assoc, P1. unfold received, openers in *. rewrite (flat_one _ (o, r) l), (flat_one (fun x => match snd x with Opened _ p | Linked p => match p_data p with [] => [p] | _ => [] end | _ => [] end) (o, r) l).
      set (a := flat_map _ [(o, r)]). set (b := flat_map (fun x => match snd x with Opened _ p | Linked p => match p_data p with [] => [p] | _ => [] end | _ => [] end) [(o, r)]).
      rewrite <- !app_assoc, P2, <- ?app_assoc. apply Permutation_app_head. rewrite !app_assoc. apply Permutation_app_tail. apply Permutation_app_tail. apply Permutation_app_comm.
    + apply Forall_app. split; [exact G1|]. eapply Forall_impl; [|exact G2]. cbn. intros; lia.
    + apply Forall_app. split; [|exact L2]. eapply Forall_impl; [|exact L1]. cbn. intros; lia.
    + lia.
    + apply (sorted_app n1 n2 (fresh s1)); auto.
Qed.
Lemma start_in s l s' : runs (start s) l s' -> exists nw, Forall2 carries (injected l) nw /\ NoDup nw /\ Permutation nw (received l ++ openers l ++ incoming s').
Proof.
  intro R. destruct (runs_in _ _ _ R) as (nw & B & P & _ & _ & _ & O). exists nw. split; [exact B|]. split; [|exact P].
  clear - O. induction O as [|p l O IH F]; constructor; auto. intro I. apply (proj1 (Forall_forall _ _) F) in I. lia.
Qed.
(** who receives *)
Lemma step_to o s s1 r : step o s = Ok s1 r -> texts [(o, r)] -> Forall (fun p => cstr (p_to p)) (incoming s) ->
  Forall (fun p => cstr (p_to p)) (incoming s1) /\ (forall loc b n p, (o = Recv loc b n \/ o = Recvfrom loc b n) -> r = Got p -> glob false (p_to p) loc) /\
  (forall fd loc b d p, (o = Accept loc b fd \/ o = Connect fd loc b d) -> (r = Opened fd p \/ r = Linked p) -> glob false (p_to p) loc).
Proof.
  intros E T F. apply Forall_inv in T. cbn [fst] in T.
  assert (PK : forall loc p r', cstr loc -> pick loc (incoming s) = Some (p, r') -> cstr (p_to p) /\ Forall (fun p => cstr (p_to p)) r' /\ glob false (p_to p) loc).
  { intros loc p r' C P. apply pick_first in P. destruct P as (b & c & Es & -> & S1 & _). rewrite Es in F. apply Forall_app in F. destruct F as [Fb Fc]. inversion Fc as [|? ? C1 Fc']. subst.
    split; [exact C1|]. split; [apply Forall_app; auto|]. apply selects_glob; auto. }
  destruct o as [fd data|loc dest data|loc block len|loc block len|loc block fd|fd loc block dest|from to data|]; cbn [step] in E.
  - injection E as <- <-. split; [exact F|]. split; intros; destruct H as [H|H]; discriminate.
  - injection E as <- <-. split; [exact F|]. split; intros; destruct H as [H|H]; discriminate.
  - unfold recv, read_incoming in E. destruct (pick loc (incoming s)) as [(p, r')|] eqn:P.
    + destruct (len <? length (p_data p))%nat; [discriminate|]. injection E as <- <-. destruct (PK _ _ _ T P) as (C1 & F1 & G1). split; [exact F1|]. split; intros.
      * injection H0 as <-. destruct H as [H|H]; [injection H as <- <- <-; exact G1|discriminate].
      * destruct H as [H|H]; discriminate.
    + destruct block; [discriminate|]. injection E as <- <-. split; [exact F|]. split; intros; [discriminate|]. destruct H as [H|H]; discriminate.
  - unfold recv, read_incoming in E. destruct (pick loc (incoming s)) as [(p, r')|] eqn:P.
    + destruct (len <? length (p_data p))%nat; [discriminate|]. injection E as <- <-. destruct (PK _ _ _ T P) as (C1 & F1 & G1). split; [exact F1|]. split; intros.
      * injection H0 as <-. destruct H as [H|H]; [discriminate|injection H as <- <- <-; exact G1].
      * destruct H as [H|H]; discriminate.
    + destruct block; [discriminate|]. injection E as <- <-. split; [exact F|]. split; intros; [discriminate|]. destruct H as [H|H]; discriminate.
  - unfold read_incoming in E. destruct (pick loc (incoming s)) as [(p, r')|] eqn:P.
    + injection E as <- <-. destruct (PK _ _ _ T P) as (C1 & F1 & G1). split; [unfold keep; destruct (p_data p); [exact F1|constructor; auto]|]. split; intros.
      * discriminate.
      * destruct H as [H|H]; [|discriminate]. injection H as <- <- <-. destruct H0 as [H0|H0]; [injection H0 as <-; exact G1|discriminate].
    + destruct block; [discriminate|]. injection E as <- <-. split; [exact F|]. split; intros; [discriminate|]. destruct H0 as [H0|H0]; discriminate.
  - unfold read_incoming in E. cbn [with_socket incoming] in E. destruct (pick loc (incoming s)) as [(p, r')|] eqn:P.
    + injection E as <- <-. destruct (PK _ _ _ T P) as (C1 & F1 & G1). split; [unfold keep; destruct (p_data p); [exact F1|constructor; auto]|]. split; intros.
      * discriminate.
      * destruct H as [H|H]; [discriminate|]. injection H as <- <- <- <-. destruct H0 as [H0|H0]; [discriminate|injection H0 as <-; exact G1].
    + destruct block; [discriminate|]. injection E as <- <-. split; [exact F|]. split; intros; [discriminate|]. destruct H0 as [H0|H0]; discriminate.
  - injection E as <- <-. split; [apply Forall_app; split; [exact F|repeat constructor; exact T]|]. split; intros; destruct H as [H|H]; discriminate.
  - destruct (outgoing s) as [|p r'] eqn:O; injection E as <- <-; (split; [exact F|]); split; intros; destruct H as [H|H]; discriminate.
Qed.
Lemma runs_to s l s' : runs s l s' -> texts l -> Forall (fun p => cstr (p_to p)) (incoming s) -> forall o r, In (o, r) l ->
  (forall loc b n p, (o = Recv loc b n \/ o = Recvfrom loc b n) -> r = Got p -> glob false (p_to p) loc) /\
  (forall fd loc b d p, (o = Accept loc b fd \/ o = Connect fd loc b d) -> (r = Opened fd p \/ r = Linked p) -> glob false (p_to p) loc).
Proof.
  induction 1 as [s|s o r s1 l s2 E R IH]; intros T F o' r' I; [contradiction|]. inversion T as [|? ? T1 T2]. subst.
  destruct (step_to _ _ _ _ E (Forall_cons _ T1 (Forall_nil _)) F) as (F1 & G). destruct I as [I|I]; [injection I as <- <-; exact G|]. apply IH; auto.
Qed.
(** the order of receipt *)
Lemma received_at_spec loc s l s' : runs s l s' -> datagrams l -> ordered (incoming s) -> below (fresh s) (incoming s) ->
  ordered (received_at loc l) /\ Forall (fun p => (In p (incoming s) \/ (pid p >= fresh s)%nat) /\ selects (p_to p) loc = true) (received_at loc l).
Proof.
  induction 1 as [s|s o r s1 l s2 E R IH]; intros D O B; [split; constructor|]. inversion D as [|? ? D1 D2]. subst. cbn [fst] in D1.
  assert (SUB : forall b c p, incoming s = b ++ p :: c -> ordered (b ++ c) /\ below (fresh s) (b ++ c) /\ (forall q, In q c -> (pid p < pid q)%nat) /\ (forall q, In q b -> (pid q < pid p)%nat)).
  { intros b c p Es. rewrite Es in O, B. clear - O B. induction b as [|x b IHb]; cbn [app] in *.
    - inversion O as [|? ? O' F]. inversion B. subst. repeat split; auto; [|contradiction]. intros q I. apply (proj1 (Forall_forall _ _) F q I).
    - inversion O as [|? ? O' F]. inversion B as [|? ? B1 B2]. subst. destruct (IHb O' B2) as (I1 & I2 & I3 & I4). repeat split; auto.
      + constructor; auto. apply Forall_forall. intros q I. apply (proj1 (Forall_forall _ _) F). apply in_app_or in I. apply in_or_app. destruct I; [left|right; right]; assumption.
      + constructor; auto.
      + intros q [<-|I]; auto. apply (proj1 (Forall_forall _ _) F). apply in_or_app. right. left. reflexivity. }
  assert (KEEP : incoming s1 = incoming s -> (fresh s <= fresh s1)%nat -> received_at loc ((o, r) :: l) = received_at loc l -> (ordered (received_at loc ((o, r) :: l)) /\ Forall (fun p => (In p (incoming s) \/ (pid p >= fresh s)%nat) /\ selects (p_to p) loc = true) (received_at loc ((o, r) :: l)))).
  { intros Ei Ef Er. rewrite Er. destruct IH as [I1 I2]; auto; [rewrite Ei; exact O|rewrite Ei; eapply Forall_impl; [|exact B]; cbn; intros; lia|]. split; [exact I1|]. eapply Forall_impl; [|exact I2]. cbn. rewrite Ei. intros p [[I|I] S1]; split; auto. right; lia. }
  assert (RCV : forall loc' len block, recv loc' block len s = Ok s1 r -> (forall p, r = Got p -> received_at loc ((o, r) :: l) = (if list_eq_dec N.eq_dec loc' loc then [p] else []) ++ received_at loc l) -> ((forall p, r <> Got p) -> received_at loc ((o, r) :: l) = received_at loc l) ->
    ordered (received_at loc ((o, r) :: l)) /\ Forall (fun p => (In p (incoming s) \/ (pid p >= fresh s)%nat) /\ selects (p_to p) loc = true) (received_at loc ((o, r) :: l))).
  { intros loc' len block E' H1 H2. unfold recv, read_incoming in E'. destruct (pick loc' (incoming s)) as [(p, r')|] eqn:P.
    - destruct (len <? length (p_data p))%nat; [discriminate|]. injection E' as <- <-. apply pick_first in P. destruct P as (b & c & Es & -> & S1 & S2). destruct (SUB b c p Es) as (Q1 & Q2 & Q3 & Q4).
      rewrite (H1 p eq_refl). destruct IH as [I1 I2]; auto. cbn [with_incoming incoming fresh] in I2.
      assert (I3 : Forall (fun q => (In q (incoming s) \/ (pid q >= fresh s)%nat) /\ selects (p_to q) loc = true) (received_at loc l)).
      { eapply Forall_impl; [|exact I2]. cbn. rewrite Es. intros q [[I|I] Sq]; split; auto. left. apply in_or_app. apply in_app_or in I. destruct I; [left|right; right]; assumption. }
      destruct (list_eq_dec N.eq_dec loc' loc) as [->|NE]; [|split; assumption]. cbn [app]. split.
      + constructor; [exact I1|]. apply Forall_forall. intros q I. apply (proj1 (Forall_forall _ _) I2) in I. destruct I as [[I|I] Sq].
        * apply in_app_or in I. destruct I as [I|I]; [rewrite (S2 q I) in Sq; discriminate|apply Q3; exact I].
        * rewrite Es in B. apply Forall_app in B. destruct B as [_ B]. apply Forall_inv in B. lia.
      + constructor; [|exact I3]. split; [left; rewrite Es; apply in_or_app; right; left; reflexivity|exact S1].
    - destruct block; [discriminate|]. injection E' as <- <-. apply KEEP; auto. apply H2. discriminate. }
  destruct o as [fd data|loc' dest data|loc' block len|loc' block len|loc' block fd|fd loc' block dest|from to data|]; cbn [step] in E; try contradiction.
  - injection E as <- <-. apply KEEP; [reflexivity|cbn; lia|reflexivity].
  - injection E as <- <-. apply KEEP; [reflexivity|cbn; lia|reflexivity].
  - apply (RCV loc' len block E); [intros p ->; reflexivity|]. intro NG. unfold received_at. cbn [flat_map fst snd]. destruct r; try reflexivity. exfalso. apply (NG p eq_refl).
  - apply (RCV loc' len block E); [intros p ->; reflexivity|]. intro NG. unfold received_at. cbn [flat_map fst snd]. destruct r; try reflexivity. exfalso. apply (NG p eq_refl).
  - injection E as <- <-. change (received_at loc ((Inject from to data, Nothing) :: l)) with (received_at loc l). destruct IH as [I1 I2]; auto.
    + cbn [put_incoming incoming]. apply (sorted_app _ _ (fresh s)); auto; repeat constructor; cbn; lia.
    + cbn [put_incoming incoming fresh]. apply Forall_app. split; [eapply Forall_impl; [|exact B]; cbn; intros; lia|repeat constructor; cbn; lia].
    + split; [exact I1|]. eapply Forall_impl; [|exact I2]. cbn [put_incoming incoming fresh]. intros p [[I|I] S1]; split; auto; [|right; lia]. apply in_app_or in I. destruct I as [I|[<-|[]]]; [left; exact I|right; cbn; lia].
  - destruct (outgoing s) as [|p r'] eqn:OS; injection E as <- <-; apply KEEP; auto.
Qed.
Lemma sorted_sublist a b : ordered a -> ordered b -> incl a b -> sublist a b.
Proof.
  intros A B. revert a A. induction B as [|y b B IH F]; intros a A I.
  - destruct a as [|x a]; [constructor|]. exfalso. apply (I x). left; reflexivity.
  - destruct a as [|x a]; [apply Sub_skip; apply IH; [exact A|intros z []]|]. inversion A as [|? ? A' FA]. subst.
    destruct (I x (or_introl eq_refl)) as [<-|Ix].
    + apply Sub_keep. apply IH; auto. intros z Iz. destruct (I z (or_intror Iz)) as [<-|Iz']; [|exact Iz']. apply (proj1 (Forall_forall _ _) FA) in Iz. lia.
    + apply Sub_skip. apply IH; auto. intros z Iz. destruct (I z Iz) as [<-|Iz']; [|exact Iz']. destruct Iz as [<-|Iz]; [exact Ix|].
      apply (proj1 (Forall_forall _ _) F) in Ix. apply (proj1 (Forall_forall _ _) FA) in Iz. lia.
Qed.
Lemma received_at_received loc l : incl (received_at loc l) (received l).
Proof.
  induction l as [|(o, r) l IH]; [intros x []|]. intros x I. unfold received_at, received in *. cbn [flat_map fst snd] in *. apply in_or_app. apply in_app_or in I. destruct I as [I|I]; [left|right; apply IH; exact I].
  destruct o, r; try contradiction; destruct (list_eq_dec N.eq_dec loc0 loc); try contradiction; exact I.
Qed.
Lemma start_order s l s' loc : runs (start s) l s' -> datagrams l -> exists nw, Forall2 carries (injected l) nw /\ sublist (received_at loc l) nw.
Proof.
  intros R D. destruct (runs_in _ _ _ R) as (nw & B & P & _ & _ & _ & O). exists nw. split; [exact B|].
  destruct (received_at_spec loc _ _ _ R D) as [OR _]; [constructor|constructor|]. apply sorted_sublist; auto.
  intros p I. apply received_at_received in I. cbn [start incoming app] in P. eapply Permutation_in; [apply Permutation_sym; exact P|]. apply in_or_app. left. exact I.
Qed.
Lemma start_to s l s' : runs (start s) l s' -> texts l -> forall o r, In (o, r) l ->
  (forall loc b n p, (o = Recv loc b n \/ o = Recvfrom loc b n) -> r = Got p -> glob false (p_to p) loc) /\
  (forall fd loc b d p, (o = Accept loc b fd \/ o = Connect fd loc b d) -> (r = Opened fd p \/ r = Linked p) -> glob false (p_to p) loc).
Proof. intros R T. apply (runs_to _ _ _ R T). constructor. Qed.
(** a receive takes the first packet for it *)
Lemma recv_first loc block len s : cstr loc -> Forall (fun p => cstr (p_to p)) (incoming s) ->
  match step (Recv loc block len) s with
  | Ok s' (Got p) => exists b c, incoming s = b ++ p :: c /\ incoming s' = b ++ c /\ glob false (p_to p) loc /\ (length (p_data p) <= len)%nat /\ forall q, In q b -> ~ glob false (p_to q) loc
  | Ok s' r => r = Zero /\ s' = s /\ block = false /\ forall q, In q (incoming s) -> ~ glob false (p_to q) loc
  | Waits => block = true /\ forall q, In q (incoming s) -> ~ glob false (p_to q) loc
  | Overruns => exists b p c, incoming s = b ++ p :: c /\ glob false (p_to p) loc /\ (len < length (p_data p))%nat /\ forall q, In q b -> ~ glob false (p_to q) loc
  end.
Proof.
  intros C F. cbn [step]. unfold recv, read_incoming.
  assert (NG : forall q, cstr (p_to q) -> selects (p_to q) loc = false -> ~ glob false (p_to q) loc) by (intros q Cq Sq G; apply selects_glob in G; auto; congruence).
  destruct (pick loc (incoming s)) as [(p, r')|] eqn:P.
  - apply pick_first in P. destruct P as (b & c & Es & -> & S1 & S2). rewrite Es in F. apply Forall_app in F. destruct F as [Fb Fc]. apply Forall_inv in Fc. apply selects_glob in S1; auto.
    assert (NB : forall q, In q b -> ~ glob false (p_to q) loc) by (intros q I; apply NG; [exact (proj1 (Forall_forall _ _) Fb q I)|apply S2; exact I]).
    destruct (len <? length (p_data p))%nat eqn:L; [apply Nat.ltb_lt in L; exists b, p, c; auto|]. apply Nat.ltb_ge in L. exists b, c. auto.
  - rewrite pick_none in P. assert (NB : forall q, In q (incoming s) -> ~ glob false (p_to q) loc) by (intros q I; apply NG; [exact (proj1 (Forall_forall _ _) F q I)|apply P; exact I]).
    destruct block; auto.
Qed.
(** the data that opened a connection are received next *)
Lemma accept_recv loc block fd s s1 p b len : step (Accept loc block fd) s = Ok s1 (Opened fd p) -> p_data p <> [] -> (length (p_data p) <= len)%nat -> exists s2, step (Recv loc b len) s1 = Ok s2 (Got p).
Proof.
  cbn [step]. unfold recv, read_incoming. destruct (pick loc (incoming s)) as [(q, r')|] eqn:P; [|destruct block; discriminate]. intro E. injection E as <- <-. intros NE L. apply pick_first in P. destruct P as (x & y & _ & _ & S1 & _).
  unfold keep. destruct (p_data q) as [|c d] eqn:D; [congruence|]. cbn [with_incoming with_socket incoming pick]. rewrite S1, D. replace (len <? length (c :: d))%nat with false by (symmetry; apply Nat.ltb_ge; exact L). eauto.
Qed.

(** no sender given: the packet is an answer *)
Lemma last_app {X} (a b : list X) d : last (a ++ b) d = last b (last a d).
Proof. induction a as [|x a IH]; [reflexivity|]. destruct a as [|y a]; cbn [app last] in *; [|exact IH]. destruct b as [|z b]; [reflexivity|]. clear. revert z. induction b as [|w b IH]; intro z; [reflexivity|]. cbn [last] in *. apply IH. Qed.
Lemma sends_det k l x : sends k l x -> forall y, sends k l y -> x = y.
Proof.
  assert (FL : forall k fd a b, first_link k fd a -> first_link k fd b -> a = b).
  { intros k0 fd a b [(x1 & y1 & -> & F1)|[F1 ->]] [(x2 & y2 & E2 & F2)|[F2 ->]].
    - revert x2 E2 F2. induction x1 as [|z x1 IH]; intros [|z2 x2] E2 F2; cbn [app] in E2; injection E2.
      + congruence.
      + intros _ <-. exfalso. apply (F2 (fd, a)); [left; reflexivity|reflexivity].
      + intros _ ->. exfalso. apply (F1 (fd, b)); [left; reflexivity|reflexivity].
      + intros E <-. apply (IH (fun q I => F1 q (or_intror I)) x2 E (fun q I => F2 q (or_intror I))).
    - exfalso. apply (F2 (fd, a)); [apply in_or_app; right; left; reflexivity|reflexivity].
    - exfalso. subst k0. apply (F1 (fd, b)); [apply in_or_app; right; left; reflexivity|reflexivity].
    - reflexivity. }
  induction 1 as [k|k fd data r l x a F H IH|k loc dest data r l x H IH|k o r l x N1 N2 H IH]; intros y Y; inversion Y; subst; try (exfalso; match goal with H : forall _ _, Send _ _ <> _ |- _ => eapply H; reflexivity | H : forall _ _ _, Sendto _ _ _ <> _ |- _ => eapply H; reflexivity | H : forall _ _, ?o <> _ |- _ => eapply H; reflexivity end); auto.
  - f_equal; auto. match goal with G : first_link k fd ?b |- _ => rewrite (FL k fd a b F G); reflexivity end.
  - f_equal; auto.
Qed.
Lemma step_last o s s1 r : step o s = Ok s1 r -> forall x, sends (sockets s) [(o, r)] x -> last_to s1 = last_dest x (last_to s).
Proof.
  intros E x X. destruct o as [fd data|loc dest data|loc block len|loc block len|loc block fd|fd loc block dest|from to data|]; cbn [step] in E.
  - injection E as <- <-. rewrite (sends_det _ _ _ X _ (Sd_send _ _ _ _ _ _ _ (peer_first fd (sockets s)) (Sd_nil _))). reflexivity.
  - injection E as <- <-. rewrite (sends_det _ _ _ X _ (Sd_sendto _ _ _ _ _ _ _ (Sd_nil _))). reflexivity.
  - inversion X; subst. match goal with H : sends _ [] _ |- _ => inversion H; subst end. unfold recv, read_incoming in E. destruct (pick loc (incoming s)) as [(p, r')|]; [destruct (len <? length (p_data p))%nat; [discriminate|]|destruct block; [discriminate|]]; injection E as <- <-; reflexivity.
  - inversion X; subst. match goal with H : sends _ [] _ |- _ => inversion H; subst end. unfold recv, read_incoming in E. destruct (pick loc (incoming s)) as [(p, r')|]; [destruct (len <? length (p_data p))%nat; [discriminate|]|destruct block; [discriminate|]]; injection E as <- <-; reflexivity.
  - inversion X; subst. match goal with H : sends _ [] _ |- _ => inversion H; subst end. unfold read_incoming in E. destruct (pick loc (incoming s)) as [(p, r')|]; [|destruct block; [discriminate|]]; injection E as <- <-; unfold keep; try destruct (p_data p); reflexivity.
  - inversion X; subst. match goal with H : sends _ [] _ |- _ => inversion H; subst end. unfold read_incoming in E. cbn [with_socket incoming] in E. destruct (pick loc (incoming s)) as [(p, r')|]; [|destruct block; [discriminate|]]; injection E as <- <-; unfold keep; try destruct (p_data p); reflexivity.
  - inversion X; subst. match goal with H : sends _ [] _ |- _ => inversion H; subst end. injection E as <- <-. reflexivity.
  - inversion X; subst. match goal with H : sends _ [] _ |- _ => inversion H; subst end. destruct (outgoing s); injection E as <- <-; reflexivity.
Qed.
Lemma runs_last s l s' : runs s l s' -> forall x, sends (sockets s) l x -> last_to s' = last_dest x (last_to s).
Proof.
  induction 1 as [s|s o r s1 l s2 E R IH]; intros x X; [inversion X; reflexivity|].
  destruct (step_send _ _ _ _ E) as (y & Y & _ & L). destruct (runs_send _ _ _ R) as (z & Z & _ & _).
  rewrite (IH z Z), (step_last _ _ _ _ E y Y). rewrite (sends_det _ _ _ X (y ++ z)); [unfold last_dest; rewrite map_app, last_app; reflexivity|]. apply (sends_app _ [(o, r)] l); [exact Y|rewrite <- L; exact Z].
Qed.
Lemma start_reply s l s1 to data s2 r : runs (start s) l s1 -> step (Inject [] to data) s1 = Ok s2 r ->
  exists x p, sends (sockets s) l x /\ incoming s2 = incoming s1 ++ [p] /\ p_to p = to /\ p_data p = data /\ p_from p = last_dest x (str "0.0.0.0:0").
Proof.
  intros R E. destruct (runs_send _ _ _ R) as (x & X & _ & _). cbn [step] in E. injection E as <- <-. exists x. eexists. split; [exact X|]. split; [reflexivity|]. repeat split. cbn [p_from]. apply (runs_last _ _ _ R x X).
Qed.

(** ** attributes *)
Definition filler (c : byte) : Prop := isspace c = true \/ c = 34.
Lemma parse_iport_spec s t : Forall (fun c => iport_char c = true \/ filler c) s -> (match t with [] => True | c :: _ => iport_char c = false /\ ~ filler c end) -> parse_iport (s ++ t) = filter iport_char s.
Proof.
  intros F T. induction F as [|c s H F IH]; cbn [app filter parse_iport].
  - destruct t as [|c t]; [reflexivity|]. destruct T as [T1 T2]. cbn [parse_iport]. rewrite T1. destruct (isspace c || (c =? 34)) eqn:B; [|reflexivity]. exfalso. apply T2. apply orb_true_iff in B. destruct B as [B|B]; [left; exact B|right; apply N.eqb_eq; exact B].
  - destruct (iport_char c) eqn:I; [rewrite IH; reflexivity|]. destruct H as [H|H]; [discriminate|]. destruct H as [H|H]; [rewrite H|rewrite H; rewrite orb_true_r]; exact IH.
Qed.
Lemma strip_left_ws w s : Forall (fun c => isspace c = true) w -> (match s with [] => True | c :: _ => isspace c = false end) -> strip_left (w ++ s) = s.
Proof. intros F T. induction F as [|c w H F IH]; cbn [app strip_left]; [|rewrite H; exact IH]. destruct s as [|c s]; [reflexivity|]. cbn [strip_left]. rewrite T. reflexivity. Qed.
Lemma parse_strip s : parse_iport (strip_left s) = parse_iport s.
Proof.
  induction s as [|c s IH]; [reflexivity|]. cbn [strip_left]. destruct (isspace c) eqn:B; [|reflexivity]. rewrite IH. cbn [parse_iport].
  assert (I : iport_char c = false). { unfold isspace in B. unfold iport_char. apply orb_true_iff in B. rewrite !orb_false_iff, andb_false_iff, !N.eqb_neq, !N.leb_gt. destruct B as [B|B]; [apply N.eqb_eq in B|apply andb_true_iff in B; destruct B as [B1 B2]; apply N.leb_le in B1, B2]; lia. }
  rewrite I, B. reflexivity.
Qed.
Lemma key_here k w v : Forall (fun c => isspace c = true) w -> match strip_left (skipn (length k) (k ++ w ++ 61 :: v)) with 61 :: x => Some (strip_left x) | _ => Some [] end = Some (strip_left v).
Proof. intro W. rewrite skipn_app, skipn_all, Nat.sub_diag. cbn [skipn app]. rewrite strip_left_ws; [reflexivity|exact W|reflexivity]. Qed.
Lemma case_prefix_refl k s : case_prefix k (k ++ s) = true.
Proof. induction k as [|c k IH]; [reflexivity|]. cbn [app case_prefix]. rewrite N.eqb_refl. exact IH. Qed.
Lemma from_key_skip a key s : (forall c, In c a -> tolower c <> tolower (hd 0 key)) -> key <> [] -> from_key (a ++ s) key = from_key s key.
Proof.
  intros H NE. destruct key as [|k key]; [congruence|]. cbn [hd] in H. induction a as [|c a IH]; [reflexivity|]. cbn [app from_key case_prefix]. replace (tolower k =? tolower c) with false by (symmetry; apply N.eqb_neq; intro E; apply (H c (or_introl eq_refl)); congruence).
  cbn [andb]. apply IH. intros x I. apply H. right; exact I.
Qed.
Lemma from_key_here key s : from_key (key ++ s) key = Some (key ++ s).
Proof. destruct key as [|k key]; [destruct s; reflexivity|]. cbn [app from_key]. change (k :: key ++ s) with ((k :: key) ++ s). rewrite case_prefix_refl. reflexivity. Qed.
Lemma inject_spec w1 v1 w2 w3 v2 : Forall (fun c => isspace c = true) w1 -> Forall (fun c => isspace c = true) w2 -> Forall (fun c => isspace c = true) w3 ->
  Forall (fun c => iport_char c = true \/ filler c) v1 -> Forall (fun c => iport_char c = true \/ filler c) v2 ->
  filter iport_char v1 <> [] -> filter iport_char v2 <> [] -> (length (filter iport_char v1) <= 255)%nat -> (length (filter iport_char v2) <= 255)%nat ->
  inject (str "from" ++ w1 ++ str "=" ++ v1 ++ str "," ++ w2 ++ str "to" ++ w3 ++ str "=" ++ v2) = Some (filter iport_char v1, filter iport_char v2).
Proof.
  intros W1 W2 W3 V1 V2 N1 N2 L1 L2. unfold inject.
  assert (PL : forall v, Forall (fun c => iport_char c = true \/ filler c) v -> forall c, In c v -> tolower c <> 116).
  { intros v V c I E. apply (proj1 (Forall_forall _ _) V) in I. assert (Cc : c = 116 \/ c = 84) by (unfold tolower in E; destruct ((65 <=? c) && (c <=? 90)) eqn:B; [right; lia|left; exact E]).
    destruct I as [I|[I|I]]; destruct Cc as [-> | ->]; try discriminate. }
  assert (WF : forall w, Forall (fun c => isspace c = true) w -> Forall (fun c => iport_char c = true \/ filler c) w) by (intros w W; eapply Forall_impl; [|exact W]; intros c H; right; left; exact H).
  assert (K1 : get_keyvalue (str "from" ++ w1 ++ str "=" ++ v1 ++ str "," ++ w2 ++ str "to" ++ w3 ++ str "=" ++ v2) (str "from") = Some (strip_left (v1 ++ str "," ++ w2 ++ str "to" ++ w3 ++ str "=" ++ v2))).
  { unfold get_keyvalue. rewrite from_key_here. apply (key_here (str "from")). exact W1. }
  assert (K2 : get_keyvalue (str "from" ++ w1 ++ str "=" ++ v1 ++ str "," ++ w2 ++ str "to" ++ w3 ++ str "=" ++ v2) (str "to") = Some (strip_left v2)).
  { unfold get_keyvalue. replace (str "from" ++ w1 ++ str "=" ++ v1 ++ str "," ++ w2 ++ str "to" ++ w3 ++ str "=" ++ v2) with ((str "from" ++ w1 ++ str "=" ++ v1 ++ str "," ++ w2) ++ str "to" ++ w3 ++ str "=" ++ v2) by (rewrite <- !app_assoc; reflexivity).
    rewrite from_key_skip; [|intros c I|discriminate].
    - rewrite from_key_here. apply (key_here (str "to")). exact W3.
    - change (tolower (hd 0 (str "to"))) with 116. rewrite !in_app_iff in I. destruct I as [I|[I|[I|[I|[I|I]]]]].
      + cbn in I. repeat (destruct I as [<-|I]; [discriminate|]). destruct I.
      + apply (PL _ (WF _ W1) c I).
      + destruct I as [<-|[]]. discriminate.
      + apply (PL _ V1 c I).
      + destruct I as [<-|[]]. discriminate.
      + apply (PL _ (WF _ W2) c I). }
  rewrite K1, K2. cbn [into]. rewrite !parse_strip. rewrite (parse_iport_spec v1); [|exact V1|split; [reflexivity|intros [H|H]; discriminate]].
  assert (EV : parse_iport v2 = filter iport_char v2) by (rewrite <- (parse_iport_spec v2 [] V2 I); rewrite app_nil_r; reflexivity). rewrite EV.
  destruct (filter iport_char v1) as [|c1 x1] eqn:E1; [congruence|]. destruct (filter iport_char v2) as [|c2 x2] eqn:E2; [congruence|].
  replace (255 <? length (c1 :: x1))%nat with false by (symmetry; apply Nat.ltb_ge; exact L1). replace (255 <? length (c2 :: x2))%nat with false by (symmetry; apply Nat.ltb_ge; exact L2). reflexivity.
Qed.
