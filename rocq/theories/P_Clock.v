(** C102: the calendar functions while memory is checked. *)
From Coq Require Import List NArith ZArith Bool.
From Verif Require Import Base StubModel StubSpec ClockModel ClockSpec ClockProofs.
Import ListNotations.
Local Open Scope Z_scope.

(** what it means that a date shows a moment: there is one way to show it *)
Theorem C102_calendar : forall east t a b, shows east t a -> shows east t b -> zone_of a = zone_of b -> a = b.
Proof. exact shows_once. Qed.
Print Assumptions C102_calendar.
Example C102_calendar_example : shows 0 951782400 (mktm 0 0 0 29 1 100 2 59 0 0 0%N) /\ shows 0 new_year (mktm 0 0 0 1 0 112 0 0 0 0 0%N).
Proof. split; [exact leap_day_shows|exact filled_shows]. Qed.

(** whatever moment is asked for, the date is Sunday, 1 January 2012, midnight in Greenwich, in the buffer given or else the static one *)
Theorem C102_date : forall st clock b, gives_new_year b st (gmtime st clock b) /\ gives_new_year b st (localtime st clock b) /\
  forall r, gives_new_year b r (gmtime_r st clock (Some r) b) /\ gives_new_year b r (localtime_r st clock (Some r) b).
Proof. exact date_ok. Qed.
Print Assumptions C102_date.
Example C102_date_example : let b := fun x => mktm 7 7 7 7 7 7 7 7 7 7 x in
  tm_wday (fst (gmtime_r 100 951782400 (Some 5%N) b) 5%N) = 0 /\ tm_year (fst (gmtime_r 100 951782400 (Some 5%N) b) 5%N) = 112 /\
  fst (gmtime_r 100 951782400 (Some 5%N) b) 100%N = b 100%N /\ snd (localtime 100 951782400 b) = 100%N.
Proof. vm_compute. auto. Qed.

(** mktime gives the moment of that date where clocks are eight hours ahead of Greenwich, whatever it is asked *)
Theorem C102_mktime : forall t d, shows 0 new_year d -> shows 28800 (mktime t) d /\ mktime t = new_year - 28800.
Proof. exact mktime_ok. Qed.
Print Assumptions C102_mktime.
Example C102_mktime_example : shows 0 new_year filled /\ mktime (mktm 0 0 0 29 1 100 2 59 0 0 0%N) = 1325347200.
Proof. split; [exact filled_shows|reflexivity]. Qed.
(** so that it does not undo gmtime and localtime, both of which show Greenwich *)
Theorem C102_mktime_refuted : exists st clock b, let '(b', r) := localtime st clock b in
  shows 0 new_year (b' r) /\ tm_gmtoff (b' r) = 0 /\ mktime (b' r) <> new_year.
Proof. exists 0%N, 0, (fun _ => filled). split; [exact filled_shows|]. split; [reflexivity|discriminate]. Qed.
Print Assumptions C102_mktime_refuted.

(** the text of asctime and ctime tells that date but for upper case and blanks *)
Theorem C102_text : forall t clock d, shows 0 new_year d -> asctime t = ctime clock /\ alike (asctime t) (standard_text d).
Proof. exact text_alike. Qed.
Print Assumptions C102_text.
Example C102_text_example : standard_text filled = str "Sun Jan  1 00:00:00 2012" ++ [10%N] /\
  standard_text (mktm 9 8 7 29 1 100 2 59 0 0 0%N) = str "Tue Feb 29 07:08:09 2000" ++ [10%N] /\ ~ alike (asctime filled) (standard_text (mktm 9 8 7 29 1 100 2 59 0 0 0%N)).
Proof. vm_compute. repeat split; discriminate. Qed.
(** it is not the text the C standard prescribes *)
Theorem C102_text_refuted : exists t, shows 0 new_year t /\ asctime t <> standard_text t.
Proof. exists filled. split; [exact filled_shows|]. apply text_not_standard. exact filled_shows. Qed.
Print Assumptions C102_text_refuted.

(** asctime_r and ctime_r write that text into the buffer given, which may be as small as the C standard allows *)
Theorem C102_text_r : forall t clock buf m, gives_text m buf (asctime t) (asctime_r t buf m) /\ gives_text m buf (ctime clock) (ctime_r clock buf m).
Proof. exact text_r_ok. Qed.
Print Assumptions C102_text_r.
Example C102_text_r_example : bytes_at (fst (ctime_r 951782400 1000%N (fun x => x))) 999%N 27 = [999%N] ++ clock_text ++ [0%N; 1025%N].
Proof. vm_compute. reflexivity. Qed.

(** once memory is checked, each of the nine functions leads to its substitute in every later state in which no scope opened since has
    a stub of its own for it *)
Theorem C102_installed : forall m libc ours fs st, nested m ([] :: fs) st -> replaceable m st libc ours ->
  exists fr, nested m (fr :: fs) (initialize true (N.of_nat (length fs)) libc ours st) /\
    forall fs' st' f, nested m (fs' ++ fr :: fs) st' -> untouched fs' (libc f) -> jumps_to (code st') (libc f) (ours f).
Proof. exact installed. Qed.
Print Assumptions C102_installed.
Example C102_installed_example : nested plain [[]] (mkstate plain [] []) /\ replaceable plain (mkstate plain [] []) libc_at ours_at.
Proof. split; [repeat constructor|exact plain_replaceable]. Qed.
Example C102_installed_case :
  let st := initialize true 0 libc_at ours_at (mkstate plain [] []) in
  let st1 := step st (Add 1 (libc_at Fmktime) 0xA000) in
  let st2 := step st1 (ClearAll 1) in
  nested plain [clock_frame libc_at ours_at] st /\ nested plain [[(libc_at Fmktime, libc_at Fmktime, 0xA000%N)]; clock_frame libc_at ours_at] st1 /\
  nested plain [clock_frame libc_at ours_at] st2 /\
  jumps_to (code st) (libc_at Fmktime) (ours_at Fmktime) /\ jumps_to (code st1) (libc_at Fmktime) 0xA000 /\
  jumps_to (code st1) (libc_at Fgmtime) (ours_at Fgmtime) /\ jumps_to (code st2) (libc_at Fmktime) (ours_at Fmktime).
Proof. exact installed_example. Qed.

(** without the check of memory nothing is put in their place: code outside other stubs is the original *)
Theorem C102_without : forall m fs st scope libc ours x, nested m fs st -> (forall fp, in_force fs fp <> None -> ~ prefix fp x) ->
  code (initialize false scope libc ours st) x = m x.
Proof. exact without_check. Qed.
Print Assumptions C102_without.
Example C102_without_example : nested plain [[]] (mkstate plain [] []) /\ (forall fp, in_force [[]] fp <> None -> ~ prefix fp (libc_at Fmktime)) /\
  code (initialize false 0 libc_at ours_at (mkstate plain [] [])) (libc_at Fmktime) = 0x55%N.
Proof. split; [repeat constructor|]. split; [intros fp H; exfalso; apply H; reflexivity|vm_compute; reflexivity]. Qed.
