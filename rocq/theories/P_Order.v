(** C26 shuffling, C27 replay of the last order. *)
From Coq Require Import List ZArith NArith Bool Arith Permutation Sorted Lia.
From Verif Require Import Base RunnerModel RunnerSpec RunnerProofs2 OrderModel OrderSpec OrderProofs OrderProofs2 OrderProofs3 OrderSpec2 OrderProofs4.
Import ListNotations.
Local Open Scope Z_scope.

(** Whatever the mode, the random numbers and the contents of .last_order, nothing is lost or duplicated. *)
Theorem C26_rearranged : forall o r file k ss ss' n, shuffle o r file k ss = Some (ss', n) -> rearranged ss ss'.
Proof. exact shuffle_rearranges. Qed.
Print Assumptions C26_rearranged.

(** Without a .last_order file the order is always defined. *)
Theorem C26_defined : forall o r k ss, exists ss', shuffle o r None k ss = Some (ss', O).
Proof. exact shuffle_defined. Qed.
Print Assumptions C26_defined.

(** By name, or by file and line: suites and the cases of each are sorted, ties in their old order. *)
Theorem C26_by_key : forall o r k ss, sh_random o = false -> c_strings ss ->
  (sh_name o = true -> exists ss', shuffle o r None k ss = Some (ss', O) /\
     all_sorted_by (fun a b => if sh_reverse o then name_le b a else name_le a b) name_tie ss ss') /\
  (sh_name o = false -> sh_file o = true -> exists ss', shuffle o r None k ss = Some (ss', O) /\
     all_sorted_by (fun a b => if sh_reverse o then file_le b a else file_le a b) file_tie ss ss').
Proof. exact shuffle_by_key. Qed.
Print Assumptions C26_by_key.

(** Reverse alone: in any round the suites and their cases run in the reverse of the order of registration. *)
Theorem C26_reverse : forall r k ss cur, (forall s, In s ss -> u_cases s <> []) -> arrangement (reg_suites seq0 ss) cur ->
  shuffle (mksh false false false true) r None k cur =
  Some (rev (map (fun s => mkts (st s) (rev (u_cases s))) (reg_suites seq0 ss)), O).
Proof. exact reverse_order. Qed.
Print Assumptions C26_reverse.

(** Random: every case draws a number of its own, every suite has that of its last case; they are sorted by these numbers, or by name or file if
    this is asked for too. *)
Theorem C26_random : forall o r k ss, sh_random o = true -> c_strings ss ->
  exists mid ss', drawn r ss mid /\ shuffle o r None k ss = Some (ss', O) /\
    all_sorted_by (fun a b => if sh_reverse o then mode_le o b a else mode_le o a b) (mode_tie o) mid ss'.
Proof. exact shuffle_random. Qed.
Print Assumptions C26_random.

(** A run with failures keeps its order; the next run, whatever its mode, replays it over what is registered then. *)
Theorem C27_next_run : forall o r failed old ss, failed <> 0 -> printable old -> total_cases old <> 0 -> total_cases old <= 268435455 ->
  distinct old -> distinct (reg_suites seq0 ss) -> (forall s, In s ss -> u_cases s <> []) ->
  exists res, shuffle o r (keep_order failed 0 old None) 0 (reg_suites seq0 ss) = Some (res, length (flat_map u_cases old)) /\
    replays old (reg_suites seq0 ss) res.
Proof.
  intros o r failed old ss F. unfold keep_order. destruct (Z.eqb_spec failed 0) as [E|_]; [contradiction|]. exact (next_run o r old ss).
Qed.
Print Assumptions C27_next_run.

(** Later rounds of the same run: the saved order again. *)
Theorem C27_next_round : forall o r failed old now k, failed <> 0 -> printable old -> total_cases old <> 0 -> distinct old -> distinct now ->
  Permutation (map sname old) (map sname now) -> (forall u, Permutation (keys_of old u) (keys_of now u)) -> (forall s, In s now -> u_cases s <> []) ->
  exists res, shuffle o r (keep_order failed 0 old None) k now = Some (res, length (entries_of old)) /\ map sname res = map sname old /\
    forall s, In s res -> keys s = keys_of old (sname s).
Proof.
  intros o r failed old now k F. unfold keep_order. destruct (Z.eqb_spec failed 0) as [E|_]; [contradiction|]. exact (next_round o r old now k).
Qed.
Print Assumptions C27_next_round.

(** The file over a whole run: without any failure it is removed; otherwise the order of the first round with failures is
    kept, or, when the very first round fails, the order file that was there. *)
Theorem C27_file : forall o r play n k file ss final hist, (forall b, file = Some b -> order_file b) ->
  rounds o r play n 0 k 0 file ss = Some (final, hist) ->
  (forall x, In x hist -> 0 <= snd x /\ printable (fst x) /\ (snd x <> 0 -> total_cases (fst x) <> 0)) ->
  length hist = n /\
  ((forall x, In x hist -> snd x = 0) -> final = match hist with [] => file | _ => None end) /\
  (forall pre u f post, hist = pre ++ (u, f) :: post -> (forall x, In x pre -> snd x = 0) -> f <> 0 ->
     final = match pre, file with [], Some b => Some b | _, _ => Some (save_last_order u) end).
Proof. intros o r play n. exact (rounds_file o r play n 0). Qed.
Print Assumptions C27_file.

(** With 'only last failed' exactly the eligible cases marked as last failed run. *)
Theorem C27_only_last_failed : forall o body order mark, break_after_fails o <= 0 -> only_last_failed o = true -> lists o = false ->
  (forall n c, In c (concat (order n)) -> c_last_failed c = mark (c_id c)) ->
  executed (rev (r_log (fst (run o body order)))) = filter (fun x => mark (snd x)) (eligible o order).
Proof. exact only_last_failed_run. Qed.
Print Assumptions C27_only_last_failed.

(** *** concrete cases *)
Definition ex_t (id : N) (nm fl : bytes) (line : Z) := mktt id nm fl line 0.
Definition ex_c (id : N) (nm : bytes) (line : Z) (f : bool) := mktc (ex_t id nm (str "a.cpp") line) f false.
Definition ex_ss := [mkts (ex_t 1 (str "net") (str "a.cpp") 1) [ex_c 2 (str "b") 2 false; ex_c 3 (str "A") 3 true; ex_c 4 (str "c") 4 false];
                     mkts (ex_t 5 (str "IO") (str "a.cpp") 10) [ex_c 6 (str "x") 11 false; ex_c 7 (str "X") 12 true]].
Definition ids (x : option (list tsuite * nat)) : list (N * list N) := match x with Some (ss, _) => map (fun s => (o_id (st s), map (fun c => o_id (ct c)) (u_cases s))) ss | None => [] end.
Definition ex_r (i : nat) : Z := nth i [5; 9; 2; 7; 1] 0.

Example C26_random_case : c_strings ex_ss /\ ids (shuffle (mksh true false false false) ex_r None 0 ex_ss) = [(5, [7; 6]); (1, [4; 2; 3])]%N /\
  ids (shuffle (mksh true false false true) ex_r None 0 ex_ss) = [(1, [3; 2; 4]); (5, [6; 7])]%N.
Proof.
  split; [|split; vm_compute; reflexivity]. intros t (s & I & T). cbn [In ex_ss] in I. destruct I as [<-|[<-|[]]]; cbn [st u_cases map ct In ex_c] in T; repeat destruct T as [T|T]; try contradiction; subst t; split; vm_compute; intuition discriminate.
Qed.
Example C26_case :
  ids (shuffle (mksh true false false false) ex_r None 0 (reg_suites seq0 ex_ss)) = [(5, [7; 6]); (1, [4; 2; 3])]%N /\
  ids (shuffle (mksh false true false false) ex_r None 0 (reg_suites seq0 ex_ss)) = [(5, [6; 7]); (1, [3; 2; 4])]%N /\
  ids (shuffle (mksh false true false true) ex_r None 0 (reg_suites seq0 ex_ss)) = [(1, [4; 2; 3]); (5, [6; 7])]%N /\
  ids (shuffle (mksh false false true true) ex_r None 0 (reg_suites seq0 ex_ss)) = [(5, [7; 6]); (1, [4; 3; 2])]%N /\
  ids (shuffle (mksh false false false true) ex_r None 0 (reg_suites seq0 ex_ss)) = [(5, [7; 6]); (1, [4; 3; 2])]%N.
Proof. vm_compute. auto. Qed.
Example C26_c_strings : c_strings (reg_suites seq0 ex_ss).
Proof.
  intros t (s & I & H). vm_compute in I. destruct I as [<-|[<-|[]]]; cbn in H; repeat (destruct H as [H|H]); try contradiction; subst t; split; vm_compute; intuition discriminate.
Qed.
(** the file of a run in another order, with a case deleted and one added since *)
Definition ex_old := [mkts (ex_t 1 (str "gone") (str "a.cpp") 1) [ex_c 2 (str "z") 2 true];
                      mkts (ex_t 5 (str "IO") (str "a.cpp") 10) [ex_c 7 (str "X") 12 true; ex_c 8 (str "w") 11 false];
                      mkts (ex_t 1 (str "net") (str "a.cpp") 1) [ex_c 4 (str "c") 4 false; ex_c 2 (str "b") 2 false]].
Example C27_case : ids (shuffle (mksh true true false false) ex_r (keep_order 2 0 ex_old None) 0 (reg_suites seq0 ex_ss)) = [(5, [7; 6]); (1, [4; 2; 3])]%N.
Proof. vm_compute. auto. Qed.
Example C27_hypotheses : printable ex_old /\ total_cases ex_old <> 0 /\ total_cases ex_old <= 268435455 /\ distinct ex_old /\ distinct (reg_suites seq0 ex_ss) /\ (forall s, In s ex_ss -> u_cases s <> []).
Proof.
  assert (LO : forall b, negb (existsb (fun c => N.eqb c 0 || N.eqb c 10) b) && Nat.leb (length b) 503 = true -> line_ok b).
  { intros b H. apply andb_true_iff in H. destruct H as [H1 H2]. apply negb_true_iff in H1. apply Nat.leb_le in H2. split; [|split; auto].
    - intro I. assert (E : existsb (fun c => N.eqb c 0 || N.eqb c 10) b = true) by (apply existsb_exists; exists 0%N; auto). congruence.
    - intro I. assert (E : existsb (fun c => N.eqb c 0 || N.eqb c 10) b = true) by (apply existsb_exists; exists 10%N; auto). congruence. }
  split; [|split; [vm_compute; discriminate|split; [vm_compute; discriminate|split; [|split]]]].
  - intros s I. cbn in I. destruct I as [<-|[<-|[<-|[]]]]; (split; [apply LO; vm_compute; auto|]); intros c Ic; cbn in Ic; repeat (destruct Ic as [<-|Ic]); try contradiction; split; apply LO; vm_compute; auto.
  - split; [|intros s I; cbn in I; destruct I as [<-|[<-|[<-|[]]]]]; vm_compute; repeat constructor; cbn; intuition discriminate.
  - split; [|intros s I; cbn in I; destruct I as [<-|[<-|[]]]]; vm_compute; repeat constructor; cbn; intuition discriminate.
  - intros s [<-|[<-|[]]]; discriminate.
Qed.
Example C27_round_case : ids (shuffle (mksh true false false false) ex_r (keep_order 1 0 ex_ss None) 7 (rev (reg_suites seq0 ex_ss))) = [(1, [2; 3; 4]); (5, [6; 7])]%N.
Proof. vm_compute. auto. Qed.

(** three rounds, the second and third with failures *)
Definition ex_play (i : nat) (ss : list tsuite) : list tsuite * Z := (ss, nth i [0; 2; 1] 0).
Example C27_file_case : exists final hist, rounds (mksh true false false false) (fun _ => ex_r) ex_play 3 0 0 0 (Some (save_last_order ex_old)) (reg_suites seq0 ex_ss) = Some (final, hist) /\
  map snd hist = [0; 2; 1] /\ final = Some (save_last_order (fst (nth 1 hist ([], 0)))) /\ order_file (save_last_order ex_old) /\
  (forall x, In x hist -> 0 <= snd x /\ printable (fst x) /\ (snd x <> 0 -> total_cases (fst x) <> 0)).
Proof.
  assert (LO : forall b, negb (existsb (fun c => N.eqb c 0 || N.eqb c 10) b) && Nat.leb (length b) 503 = true -> line_ok b).
  { intros b H. apply andb_true_iff in H. destruct H as [H1 H2]. apply negb_true_iff in H1. apply Nat.leb_le in H2. split; [|split; auto].
    - intro I. assert (E : existsb (fun c => N.eqb c 0 || N.eqb c 10) b = true) by (apply existsb_exists; exists 0%N; auto). congruence.
    - intro I. assert (E : existsb (fun c => N.eqb c 0 || N.eqb c 10) b = true) by (apply existsb_exists; exists 10%N; auto). congruence. }
  eexists; eexists. split; [vm_compute; reflexivity|]. split; [reflexivity|]. split; [vm_compute; reflexivity|].
  split; [exists ex_old; split; auto; split; [apply C27_hypotheses|vm_compute; discriminate]|].
  intros x I. cbn in I. destruct I as [<-|[<-|[<-|[]]]]; cbn [fst snd]; (split; [vm_compute; discriminate|]); (split; [|intros _; vm_compute; discriminate]);
    intros s I; cbn in I; destruct I as [<-|[<-|[]]]; (split; [apply LO; vm_compute; auto|]); intros c Ic; cbn in Ic; repeat (destruct Ic as [<-|Ic]); try contradiction; split; apply LO; vm_compute; auto.
Qed.

(** a name of 504 bytes spoils the file: what is read back is not what was written *)
Theorem C27_long_name_refuted : exists ss, distinct ss /\ (forall s c, In s ss -> In c (u_cases s) -> ~ In 0%N (o_name (ct c)) /\ ~ In 10%N (o_name (ct c)) /\ (length (o_name (ct c)) < 512)%nat) /\
  read_entries (S (length (save_last_order ss))) (save_last_order ss) <> Some (entries_of ss).
Proof.
  exists [mkts (ex_t 1 (str "net") (str "a.cpp") 1) [mktc (ex_t 2 (repeat 97%N 504) (str "a.cpp") 2) true false]]. split; [|split].
  - split; [repeat constructor; cbn; tauto|]. intros s [<-|[]]. repeat constructor. cbn. tauto.
  - intros s c [<-|[]] [<-|[]]. cbn [ct o_name ex_t]. split; [|split].
    + intro I. apply repeat_spec in I. discriminate.
    + intro I. apply repeat_spec in I. discriminate.
    + rewrite repeat_length. apply Nat.ltb_lt. reflexivity.
  - vm_compute. discriminate.
Qed.
Print Assumptions C27_long_name_refuted.
