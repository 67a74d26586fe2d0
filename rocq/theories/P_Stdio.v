(** C50: captured output. *)
From Coq Require Import List NArith ZArith Bool Arith.
From Verif Require Import Base StdioModel StdioSpec StdioProofs StdioProofs2.
Import ListNotations.
Local Open Scope N_scope.

(** whatever happened before and however verbose: the text handed to the matcher is what the calls in between said on the selected channels, in order, up to the first NUL *)
Theorem C50_captured : forall normal type l s, Forall plain l -> Forall sound l ->
  exists rs said text, snd (run normal (Begin type :: l ++ [End_]) s) = rs ++ [Text text] /\ says_all (selects type) l said /\ cut said text.
Proof. exact captured. Qed.
Print Assumptions C50_captured.
(** ... and the calls determine that *)
Theorem C50_determined : forall sel l x y, says_all sel l x -> says_all sel l y -> x = y.
Proof. exact says_all_det. Qed.
Print Assumptions C50_determined.
(** after its end a capture takes nothing more: the buffer still has the same text *)
Theorem C50_ended : forall normal l s, Forall plain l -> Forall sound l -> exists text rs, snd (run normal (End_ :: l ++ [End_]) s) = Text text :: rs ++ [Text text].
Proof. exact ended. Qed.
Print Assumptions C50_ended.
(** the bytes of the user that went to the terminal are counted *)
Theorem C50_counted : forall l s ws n, writes_all (filter (fun o => match o with Begin _ | End_ => false | _ => true end) l) ws -> shown_bytes ws n ->
  capture_length (fst (run true l s)) = (capture_length s + n)%nat /\ capture_length (fst (run false l s)) = capture_length s.
Proof. exact counted. Qed.
Print Assumptions C50_counted.
(** everything is written on to its descriptor, captured or not; the report's own output goes to stdout *)
Theorem C50_shown : forall l s ws, Forall no_title l -> writes_all (filter (fun o => match o with Begin _ | End_ => false | _ => true end) l) ws -> back s = false ->
  device (fst (run true l s)) = device s ++ map redirect ws.
Proof. exact shown_normal. Qed.
Print Assumptions C50_shown.
(** a newline parts a title of the report from the first write of the user *)
Theorem C50_parted : forall l s ws, Forall no_title l -> writes_all (filter (fun o => match o with Begin _ | End_ => false | _ => true end) l) ws -> back s = true ->
  exists x, parted ws x /\ device (fst (run true l s)) = device s ++ x.
Proof. exact shown_titled. Qed.
Print Assumptions C50_parted.
(** below normal verbosity stdout and stderr of the user are dropped, nothing else *)
Theorem C50_quiet : forall l s ws, Forall no_title l -> writes_all (filter (fun o => match o with Begin _ | End_ => false | _ => true end) l) ws ->
  exists v, device (fst (run false l s)) = device s ++ map redirect v /\ (forall w, In w v <-> In w ws /\ ~ user (fst w)) /\ v = filter (fun w => negb (is_user (fst w))) ws.
Proof. exact shown_quiet. Qed.
Print Assumptions C50_quiet.
(** verbosity changes nothing the program or the matcher sees *)
Theorem C50_verbosity : forall normal normal' l s, snd (run normal l s) = snd (run normal' l s).
Proof. exact same_results. Qed.
Print Assumptions C50_verbosity.
(** write, printf and the like return the number of bytes, fputc and putchar the character written *)
Theorem C50_returned : forall normal o s fd b, writes o [(fd, b)] ->
  match o with Write _ _ | Fprintf _ _ | Fputs _ _ | Printf _ => snd (step normal o s) = Int (Z.of_nat (length b)) | Fputc c _ | Putchar c => (0 <= c < 256)%Z -> exists n, b = [n] /\ snd (step normal o s) = Int (Z.of_N n) | _ => True end.
Proof. exact returned. Qed.
Print Assumptions C50_returned.

Definition calls : list op := [Printf (str "a"); Fputs (str "no") 2; Syslog (str "log"); Puts (str "b"); Write 7 (str "file"); Write (-21371647) (str "title"); Fputc 321 1; Stream 1 (str "cd"); Fwrite 2 3 (str "efghij--") 1; Stream 2 (str "no")].
Example C50_example : Forall plain calls /\ Forall sound calls /\ Forall no_title calls /\
  snd (run true (Begin (str "stdOUT, syslog") :: calls ++ [End_]) init) = [Void; Int 1; Int 2; Void; Int 1; Int 4; Int 5; Int 321; Void; Int 6; Void; Text (str "alogb" ++ [10] ++ str "Acdefghij")] /\
  concat (map snd (device (fst (run true calls init)))) = str "anob" ++ [10] ++ str "filetitleAcdefghijno" /\ concat (map snd (device (fst (run false calls init)))) = str "filetitle" /\
  device (fst (run true [Write (-21371647) (str "title"); Printf (str "x"); Printf (str "y")] (fst (step true (Title true) init)))) = [(1%Z, str "title"); (1%Z, [10]); (1%Z, str "x"); (1%Z, str "y")].
Proof. split; [repeat constructor|]. split; [repeat constructor|]. split; [repeat constructor|]. vm_compute. auto. Qed.

Example C50_more_example : snd (run true (End_ :: calls ++ [End_]) (fst (run true [Begin []; Printf (str "x")] init))) = [Text (str "x"); Int 1; Int 2; Void; Int 1; Int 4; Int 5; Int 321; Void; Int 6; Void; Text (str "x")] /\
  writes_all (filter (fun o => match o with Begin _ | End_ => false | _ => true end) [Begin []; Printf (str "abc"); Write 7 (str "file"); End_; Puts (str "d")]) [(1%Z, str "abc"); (7%Z, str "file"); (1%Z, str "d"); (1%Z, [10])] /\
  shown_bytes [(1%Z, str "abc"); (7%Z, str "file"); (1%Z, str "d"); (1%Z, [10])] 5 /\
  capture_length (fst (run true [Begin []; Printf (str "abc"); Write 7 (str "file"); End_; Puts (str "d")] init)) = 5%nat.
Proof.
  split; [reflexivity|]. split; [|split; [|reflexivity]].
  - cbn [filter]. apply (WA_cons _ [(1%Z, str "abc")]); [apply W_printf; apply Cut_all; vm_compute; intuition discriminate|]. apply (WA_cons _ [(7%Z, str "file")]); [apply W_write|].
    apply (WA_cons _ [(1%Z, str "d"); (1%Z, [10])] [] []); [apply W_puts; apply Cut_all; vm_compute; intuition discriminate|constructor].
  - apply (Sb_user 1%Z (str "abc") _ 2); [left; reflexivity|]. apply Sb_other; [intros [H|H]; discriminate|]. apply (Sb_user 1%Z (str "d") _ 1); [left; reflexivity|]. apply (Sb_user 1%Z [10] _ 0); [left; reflexivity|constructor].
Qed.

(** a NUL written ends the text for the matcher *)
Theorem C50_nul_refuted : snd (run true [Begin []; Putchar 97; Putchar 0; Putchar 98; End_] init) = [Void; Int 97; Int 0; Int 98; Text (str "a")].
Proof. reflexivity. Qed.
Print Assumptions C50_nul_refuted.
(** a capture inside a capture: the outer one gets neither what was written before nor after it *)
Theorem C50_nested_refuted : snd (run true [Begin []; Printf (str "a"); Begin []; Printf (str "b"); End_; Printf (str "c"); End_] init) = [Void; Int 1; Void; Int 1; Text (str "b"); Int 1; Text (str "b")].
Proof. reflexivity. Qed.
Print Assumptions C50_nested_refuted.
(** fwrite returns the number of bytes, not of items *)
Theorem C50_fwrite_refuted : snd (step true (Fwrite 4 1 (str "abcd") 1) init) = Int 4.
Proof. reflexivity. Qed.
Print Assumptions C50_fwrite_refuted.
(** writing the byte 255 as a negative char looks like an error: EOF is returned *)
Theorem C50_fputc_refuted : writes (Fputc (-1) 1) [(1%Z, [255])] /\ snd (step true (Fputc (-1) 1) init) = Int (-1).
Proof. split; [apply W_fputc|]; reflexivity. Qed.
Print Assumptions C50_fputc_refuted.
(** outside a capture messages to syslog get lost *)
Theorem C50_syslog_refuted : forall normal t, fst (step normal (Syslog t) init) = init.
Proof. reflexivity. Qed.
Print Assumptions C50_syslog_refuted.
(** an empty printf after a title prints a newline *)
Theorem C50_empty_refuted : device (fst (run true [Title true; Printf []] init)) = [(1%Z, [10]); (1%Z, [])].
Proof. reflexivity. Qed.
Print Assumptions C50_empty_refuted.
