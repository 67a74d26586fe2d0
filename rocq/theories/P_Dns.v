(** C48: hijacked name resolution. *)
From Coq Require Import List NArith Bool Arith Lia.
From Verif Require Import Base DnsModel DnsSpec DnsProofs.
Import ListNotations.
Local Open Scope N_scope.

(** getaddrinfo returns the results of the newest entry in force about the host, each an address or a canonical name, in the order given;
    it writes outside its tables only for more than 32 results *)
Theorem C48_getaddrinfo : forall pton es host hints, (forall args, In (Set_ args) es -> args = [] \/ proper pton args) -> host <> str "*" ->
  match getaddrinfo pton host hints (history pton es) with
  | Missing => forall args, ~ newest pton es host args
  | Found l => exists args rs, newest pton es host args /\ results pton args rs /\ Forall2 (info_of pton hints) rs l
  | Outside => exists args rs, newest pton es host args /\ results pton args rs /\ (32 < length rs)%nat
  end.
Proof. exact getaddrinfo_spec. Qed.
Print Assumptions C48_getaddrinfo.
(** gethostbyname returns its addresses and its other names; what the caller reads is outside the tables only for 32 results or more *)
Theorem C48_gethostbyname : forall pton es host, (forall args, In (Set_ args) es -> args = [] \/ proper pton args) -> host <> str "*" ->
  match gethostbyname pton host (history pton es) with
  | Missing => forall args, ~ newest pton es host args
  | Found (a, c) => exists args rs, newest pton es host args /\ results pton args rs /\ map Some a = filter (fun x => match x with Some _ => true | None => false end) (map pton rs) /\ c = filter (fun r => match pton r with None => true | Some _ => false end) rs
  | Outside => exists args rs, newest pton es host args /\ results pton args rs /\ (32 <= length rs)%nat
  end.
Proof. exact gethostbyname_spec. Qed.
Print Assumptions C48_gethostbyname.
(** an H2DNS is about one host, or about any *)
Theorem C48_one_name : forall pton args h h', first_shortest pton args h -> first_shortest pton args h' -> h = h'.
Proof. exact shortest_unique. Qed.
Print Assumptions C48_one_name.

(** digits are addresses here; the entry of main, one of a suite, two of a case; the case ends *)
Definition pt (p : bytes) : option N := match p with [c] => if (48 <=? c) && (c <=? 57) then Some (c - 48) else None | _ => None end.
Definition hist1 : list event := [Set_ [Some (str "7")]; Enter None; Set_ [Some (str "1"); Some (str "ab.com"); Some (str "c.com"); Some (str "2")]; Enter (Some 5); Set_ [Some (str "c.com"); Some (str "3")]; Set_ [Some (str "d.com"); Some (str "4")]].
Lemma hist1_proper : forall args, In (Set_ args) (hist1 ++ [Clear 5]) -> args = [] \/ proper pt args.
Proof.
  intros args I. right. cbn [hist1 app In] in I. unfold proper, is_name.
  repeat (destruct I as [I|I]; [first [discriminate | injection I as <-; split; [discriminate|]; intros p [J Q]; cbn [In] in J; repeat (destruct J as [J|J]; [injection J as <-; first [discriminate Q | cbn; lia]|]); destruct J]|]). destruct I.
Qed.
Example C48_example : (forall args, In (Set_ args) (hist1 ++ [Clear 5]) -> args = [] \/ proper pt args) /\
  gethostbyname pt (str "c.com") (history pt hist1) = Found ([3], []) /\
  gethostbyname pt (str "c.com") (history pt (hist1 ++ [Clear 5])) = Found ([1; 2], [str "ab.com"]) /\
  gethostbyname pt (str "d.com") (history pt (hist1 ++ [Clear 5])) = Found ([7], []) /\
  getaddrinfo pt (str "c.com") None (history pt (hist1 ++ [Clear 5])) = Found [{| ai_addr := Some 1; ai_canonname := None; ai_family := 2; ai_socktype := 1; ai_protocol := 6 |};
    {| ai_addr := None; ai_canonname := Some (str "ab.com"); ai_family := 2; ai_socktype := 1; ai_protocol := 6 |}; {| ai_addr := Some 2; ai_canonname := None; ai_family := 2; ai_socktype := 1; ai_protocol := 6 |}].
Proof. split; [exact hist1_proper|]. vm_compute. auto. Qed.
(** 33 results overrun the tables of getaddrinfo; 32 addresses leave the list of gethostbyname without an end *)
Theorem C48_overrun_refuted : getaddrinfo pt (str "c.com") None (history pt [Set_ (Some (str "c.com") :: repeat (Some (str "1")) 33)]) = Outside.
Proof. vm_compute. reflexivity. Qed.
Print Assumptions C48_overrun_refuted.
Theorem C48_unterminated_refuted : gethostbyname pt (str "c.com") (history pt [Set_ (Some (str "c.com") :: repeat (Some (str "1")) 32)]) = Outside.
Proof. vm_compute. reflexivity. Qed.
Print Assumptions C48_unterminated_refuted.
(** a name of one character gives way to the next name, though that is longer *)
Theorem C48_one_letter_refuted : gethostbyname pt (str "a") (history pt [Set_ [Some (str "a"); Some (str "b.com"); Some (str "1")]]) = Missing.
Proof. vm_compute. reflexivity. Qed.
Print Assumptions C48_one_letter_refuted.
