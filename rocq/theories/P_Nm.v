(** C76: a name or a pointer to a member function denotes the function of the program that has it. *)
From Coq Require Import List NArith ZArith Bool Arith Lia.
From Verif Require Import Base MemcmpSpec NmModel NmSpec NmProofs NmProofs2.
Import ListNotations.
Local Open Scope N_scope.

(** the symbols are those nm lists, except data *)
Theorem C76_symbols : forall es, Forall proper es -> exists l, nm (flat_map printed es) = Some l /\ exists kept, picks (fun e => ~ data e) es kept /\ Forall2 recorded kept l.
Proof. exact table_ok. Qed.
Print Assumptions C76_symbols.
Example C76_symbols_example :
  Forall proper [mkentry (str "0000000000001139") 84 (str "main"); mkentry (str "0000000000004010") 68 (str "counter"); mkentry (str "000000000000115A") 84 (str "ns::sum(int, int)")] /\
  nm (flat_map printed [mkentry (str "0000000000001139") 84 (str "main"); mkentry (str "0000000000004010") 68 (str "counter"); mkentry (str "000000000000115A") 84 (str "ns::sum(int, int)")])
    = Some [mksymbol (str "main") 0x1139; mksymbol (str "ns::sum(int, int)") 0x115A].
Proof.
  split; [|reflexivity]. assert (W : forall s, forallb (fun c => existsb (N.eqb c) (str "0123456789ABCDEF")) s = true -> exists ds, Forall2 writes s ds).
  { induction s as [|c s IH]; intros H; [exists []; constructor|]. cbn [forallb] in H. apply andb_true_iff in H. destruct H as (H & T). destruct (IH T) as (ds & F). apply existsb_exists in H. destruct H as (x & I & E).
    apply N.eqb_eq in E. subst x. apply In_nth_error in I. destruct I as (n & I). exists (Z.of_nat n :: ds). constructor; [|exact F]. exists n. split; [reflexivity|right; exact I]. }
  repeat (apply Forall_cons; [|]); [..|constructor];
    (split; [cbn; lia|split; [apply W; reflexivity|split; [cbn; lia|split; [cbn; lia|split; [cbn; lia|cbn; lia]]]]]).
Qed.

(** a leading underscore is dropped exactly if the program has _main and no main *)
Theorem C76_underscore : forall l, leading_underscore l = true <-> (exists p, In p l /\ sym p = str "_main") /\ ~ (exists p, In p l /\ sym p = str "main").
Proof. exact underscore_ok. Qed.
Print Assumptions C76_underscore.
Example C76_underscore_example : leading_underscore [mksymbol (str "_main") 64; mksymbol (str "_f") 96] = true /\ leading_underscore [mksymbol (str "_main") 64; mksymbol (str "main") 96] = false.
Proof. split; reflexivity. Qed.

(** the whole name of a symbol: the first symbol of that name, where it is in memory *)
Theorem C76_exact : forall lu l m d n p, loaded lu l m d -> n <> [] -> first_named lu n l p -> get lu l m (Some n) = Some (Found (place d p)).
Proof. exact exact_ok. Qed.
Print Assumptions C76_exact.
Example C76_exact_example :
  let l := [mksymbol (str "main") 0x1139; mksymbol (str "sum(int)") 0x1150; mksymbol (str "sum(long)") 0x1160] in
  loaded false l 0x555555555139 0x555555554000 /\ first_named false (str "sum(long)") l (mksymbol (str "sum(long)") 0x1160) /\
  get false l 0x555555555139 (Some (str "sum(long)")) = Some (Found 0x555555555160).
Proof.
  split; [split; [reflexivity|]|split; [|reflexivity]].
  - exists (mksymbol (str "main") 0x1139). split; [|reflexivity]. exists []. eexists. split; [reflexivity|]. split; [reflexivity|constructor].
  - exists [mksymbol (str "main") 0x1139; mksymbol (str "sum(int)") 0x1150], []. split; [reflexivity|]. split; [reflexivity|]. repeat constructor; discriminate.
Qed.

(** the name of a function with or without its scope, if one function only has it *)
Theorem C76_scoped : forall lu l m d n p, loaded lu l m d -> sound lu l -> n <> [] -> (forall q, In q l -> shown lu q <> n) -> picks (fun p => called n (shown lu p)) l [p] ->
  get lu l m (Some n) = Some (Found (place d p)).
Proof. exact one_ok. Qed.
Print Assumptions C76_scoped.
(** no function of that name or several: a failure with a null pointer, naming the first sixteen *)
Theorem C76_ambiguous : forall lu l m n ps, sound lu l -> n <> [] -> (forall q, In q l -> shown lu q <> n) -> picks (fun p => called n (shown lu p)) l ps -> length ps <> 1%nat ->
  get lu l m (Some n) = Some (Failed (map (shown lu) (firstn 16 ps))).
Proof. exact many_ok. Qed.
Print Assumptions C76_ambiguous.
Example C76_scoped_example :
  let l := [mksymbol (str "main") 0x1139; mksymbol (str "ns::Cl::sum(int)") 0x1150; mksymbol (str "checksum(int)") 0x1158; mksymbol (str "total(int)") 0x1160; mksymbol (str "ns::total(int)") 0x1170] in
  loaded false l 0x555555555139 0x555555554000 /\ sound false l /\ (forall q, In q l -> shown false q <> str "Cl::sum") /\
  picks (fun p => called (str "Cl::sum") (shown false p)) l [mksymbol (str "ns::Cl::sum(int)") 0x1150] /\
  picks (fun p => called (str "total") (shown false p)) l [mksymbol (str "total(int)") 0x1160; mksymbol (str "ns::total(int)") 0x1170] /\
  get false l 0x555555555139 (Some (str "Cl::sum")) = Some (Found 0x555555555150) /\
  get false l 0x555555555139 (Some (str "sum")) = Some (Found 0x555555555150) /\
  get false l 0x555555555139 (Some (str "total")) = Some (Failed [str "total(int)"; str "ns::total(int)"]) /\
  get false l 0x555555555139 (Some (str "average")) = Some (Failed []).
Proof.
  assert (NC : forall n s, n <> [] -> match s with 58 :: _ => False | _ => True end -> candidate n s = Some false -> ~ called n s).
  { intros n s NE CO H C. rewrite (candidate_true n s NE C CO) in H. discriminate. }
  assert (YC : forall n s, ~ In 40 n -> (exists rest, s = n ++ 40 :: rest \/ exists scope, ~ In 40 scope /\ s = scope ++ [58; 58] ++ n ++ 40 :: rest) -> called n s) by (intros; split; assumption).
  split; [split; [reflexivity|]|split; [|split; [|split; [|split; [|repeat split]]]]].
  - exists (mksymbol (str "main") 0x1139). split; [|reflexivity]. exists []. eexists. split; [reflexivity|]. split; [reflexivity|constructor].
  - intros q [<-|[<-|[<-|[<-|[<-|[]]]]]]; exact I.
  - intros q [<-|[<-|[<-|[<-|[<-|[]]]]]]; discriminate.
  - apply pick_not; [apply NC; [discriminate|exact I|reflexivity]|]. apply pick_it.
    + apply YC; [cbn; lia|]. exists (str "int)"). right. exists (str "ns"). split; [cbn; lia|reflexivity].
    + repeat (apply pick_not; [apply NC; [discriminate|exact I|reflexivity]|]). constructor.
  - do 3 (apply pick_not; [apply NC; [discriminate|exact I|reflexivity]|]). apply pick_it.
    + apply YC; [cbn; lia|]. exists (str "int)"). left. reflexivity.
    + apply pick_it; [|constructor]. apply YC; [cbn; lia|]. exists (str "int)"). right. exists (str "ns"). split; [cbn; lia|reflexivity].
Qed.
(** no name *)
Theorem C76_nameless : forall lu l m fn, fn = None \/ fn = Some [] -> get lu l m fn = Some (Failed []).
Proof. exact nameless_ok. Qed.
Print Assumptions C76_nameless.
Example C76_nameless_example : get false [mksymbol (str "main") 16; mksymbol [] 32] 16 (Some []) = Some (Failed []).
Proof. reflexivity. Qed.

(** functions exempted by name: that of the whole name, otherwise the first sixteen of the name *)
Theorem C76_exempt_exact : forall lu l m d n p, loaded lu l m d -> n <> [] -> first_named lu n l p -> exempted lu l m (Some n) = Some [place d p].
Proof. exact exempt_exact. Qed.
Print Assumptions C76_exempt_exact.
Theorem C76_exempt_scoped : forall lu l m d n ps, loaded lu l m d -> sound lu l -> n <> [] -> (forall q, In q l -> shown lu q <> n) -> picks (fun p => called n (shown lu p)) l ps ->
  exempted lu l m (Some n) = Some (map (place d) (firstn 16 ps)).
Proof. exact exempt_scoped. Qed.
Print Assumptions C76_exempt_scoped.
Example C76_exempt_example :
  let l := [mksymbol (str "main") 0x1139; mksymbol (str "total(int)") 0x1160; mksymbol (str "ns::total(int)") 0x1170] in
  exempted false l 0x555555555139 (Some (str "main")) = Some [0x555555555139] /\ exempted false l 0x555555555139 (Some (str "total")) = Some [0x555555555160; 0x555555555170].
Proof. split; reflexivity. Qed.

(** addresses and pointers correspond *)
Theorem C76_pointer : forall lu l m d a, loaded lu l m d -> addr_to_ptr lu l m a = Some ((a + d) mod 2 ^ 64).
Proof. exact addr_loaded. Qed.
Print Assumptions C76_pointer.
Theorem C76_address : forall lu l m d a, loaded lu l m d -> a < 2 ^ 64 -> ptr_to_addr lu l m ((a + d) mod 2 ^ 64) = Some a.
Proof. exact ptr_loaded. Qed.
Print Assumptions C76_address.
Example C76_pointer_example :
  let l := [mksymbol (str "f") 0x1000; mksymbol (str "main") 0x1139] in
  addr_to_ptr false l 0x555555555139 0x1000 = Some 0x555555555000 /\ ptr_to_addr false l 0x555555555139 0x555555555000 = Some 0x1000.
Proof. split; reflexivity. Qed.

(** pointers to member functions, with an object: the slot of a virtual function, the address of another *)
Theorem C76_object : forall word v f, (forall k, k < 1000 -> f = 1 + 8 * k -> get2 true word v f = word (v + 8 * k)) /\ (N.even f = true -> get2 true word v f = f).
Proof. exact object_ok. Qed.
Print Assumptions C76_object.
(** without one, for a class of which an object can be made *)
Theorem C76_method : forall lu word l test ts class f object, (forall v k, object = Some v -> k < 1000 -> f = 1 + 8 * k -> get1 true lu word l test ts object class f = Some (word (v + 8 * k))) /\
  (N.even f = true -> get1 true lu word l test ts object class f = Some f).
Proof. exact method_ok. Qed.
Print Assumptions C76_method.
Example C76_method_example :
  let word a := if a =? 0x4028 then 0x1234 else 0 in
  get2 true word 0x4018 17 = 0x1234 /\ get2 true word 0x4018 0x5000 = 0x5000 /\ get1 true false word [] 0 [] (Some 0x4018) (str "1A") 17 = Some 0x1234.
Proof. repeat split. Qed.
(** for other classes: by the symbol of the virtual table, whose functions begin 16 bytes after it *)
Theorem C76_abstract : forall lu word l test ts class k d p t, k < 1000 -> ts <> [] -> first_named lu ts l t -> test = (at_ t + 16 + d) mod 2 ^ 64 ->
  first_named lu (str "_ZTV" ++ class) l p -> at_ p <> 0 -> get1 true lu word l test ts None class (1 + 8 * k) = Some (word ((at_ p + 16 + d) mod 2 ^ 64 + 8 * k)).
Proof. exact abstract_ok. Qed.
Print Assumptions C76_abstract.
Theorem C76_no_vtable : forall lu word l test ts class k, k < 1000 -> (forall q, In q l -> shown lu q <> str "_ZTV" ++ class /\ shown lu q <> str "_ZTI" ++ class) ->
  get1 true lu word l test ts None class (1 + 8 * k) = None.
Proof. exact no_vtable_ok. Qed.
Print Assumptions C76_no_vtable.
Example C76_abstract_example :
  let l := [mksymbol (str "_ZTV1A") 0x3D00; mksymbol (str "_ZTVN2h214h2_vtable_testE") 0x3D40] in
  let word a := if a =? 0x555555557D18 then 0x1234 else 0 in
  first_named false (str "_ZTV" ++ str "1A") l (mksymbol (str "_ZTV1A") 0x3D00) /\ 0x555555557D50 = (0x3D40 + 16 + 0x555555554000) mod 2 ^ 64 /\
  get1 true false word l 0x555555557D50 (str "_ZTVN2h214h2_vtable_testE") None (str "1A") 9 = Some 0x1234 /\
  get1 true false word l 0x555555557D50 (str "_ZTVN2h214h2_vtable_testE") None (str "1B") 9 = None.
Proof. split; [exists []; eexists; split; [reflexivity|split; [reflexivity|constructor]]|]. repeat split. Qed.

(** false: a function in an unnamed namespace is not found by its name *)
Theorem C76_anonymous_refuted : exists l m n p, loaded false l m 0 /\ In p l /\ shown false p = str "(anonymous namespace)::" ++ n ++ str "(int)" /\ n <> [] /\
  (forall q, In q l -> q <> p -> ~ exists a b, shown false q = a ++ n ++ b) /\ get false l m (Some n) = Some (Failed []).
Proof.
  exists [mksymbol (str "main") 16; mksymbol (str "(anonymous namespace)::f(int)") 32], 16, (str "f"), (mksymbol (str "(anonymous namespace)::f(int)") 32).
  split; [split; [reflexivity|]|].
  - exists (mksymbol (str "main") 16). split; [|reflexivity]. exists []. eexists. split; [reflexivity|]. split; [reflexivity|constructor].
  - split; [right; left; reflexivity|]. split; [reflexivity|]. split; [discriminate|]. split; [|reflexivity]. intros q [<-|[<-|[]]] NE (a & b & E); [|congruence].
    assert (X : In 102 (str "main")) by (change (str "main") with (shown false (mksymbol (str "main") 16)); rewrite E; apply in_or_app; right; left; reflexivity). cbn in X. lia.
Qed.
Print Assumptions C76_anonymous_refuted.
(** false: of two functions of the same name the first is taken without a failure *)
Theorem C76_same_refuted : exists l m n p q, loaded false l m 0 /\ In p l /\ In q l /\ p <> q /\ shown false p = n /\ shown false q = n /\ get false l m (Some n) = Some (Found (at_ p)).
Proof.
  exists [mksymbol (str "main") 16; mksymbol (str "helper") 32; mksymbol (str "helper") 48], 16, (str "helper"), (mksymbol (str "helper") 32), (mksymbol (str "helper") 48).
  split; [split; [reflexivity|]|].
  - exists (mksymbol (str "main") 16). split; [|reflexivity]. exists []. eexists. split; [reflexivity|]. split; [reflexivity|constructor].
  - repeat split; [right; left; reflexivity|right; right; left; reflexivity|discriminate].
Qed.
Print Assumptions C76_same_refuted.
(** false: a function whose name has 128 characters or more is not found *)
Theorem C76_long_refuted : exists e l, proper e /\ ~ data e /\ nm (printed (mkentry (str "10") 84 (str "main")) ++ printed e) = Some l /\ get false l 16 (Some (e_name e)) = Some (Failed []).
Proof.
  exists (mkentry (str "20") 84 (repeat 97 128)). eexists. split; [|split; [|split; [vm_compute; reflexivity|vm_compute; reflexivity]]].
  - split; [cbn; lia|]. split; [exists [2; 0]%Z; repeat (apply Forall2_cons; [|]); [exists 2%nat|exists 0%nat|constructor]; split; try reflexivity; left; reflexivity|].
    split; [cbn; lia|]. split; [cbn; lia|]. split; [intro H; apply repeat_spec in H; discriminate|vm_compute; lia].
  - unfold data. cbn. lia.
Qed.
Print Assumptions C76_long_refuted.
(** false: a line of more than 2046 characters is read as two, the second of which may overrun the buffer of the address *)
Theorem C76_overrun_refuted : exists e, (1 <= length (e_addr e) <= 16)%nat /\ (exists ds, Forall2 writes (e_addr e) ds) /\ ~ white (e_type e) /\ match e_name e with [] => False | c :: _ => ~ white c end /\
  ~ In 10 (e_name e) /\ nm (printed e) = None.
Proof.
  exists (mkentry (str "20") 84 (repeat 97 2200)). split; [cbn; lia|]. split; [exists [2; 0]%Z; repeat (apply Forall2_cons; [|]); [exists 2%nat|exists 0%nat|constructor]; split; try reflexivity; left; reflexivity|].
  split; [cbn; lia|]. split; [cbn; lia|]. split; [intro H; apply repeat_spec in H; discriminate|vm_compute; reflexivity].
Qed.
Print Assumptions C76_overrun_refuted.
(** false: without the symbol of the virtual table the lookup need not fail: what follows the type information is taken for functions *)
Theorem C76_typeinfo_refuted : exists word l test ts class f x, (forall q, In q l -> shown false q <> str "_ZTV" ++ class) /\
  get1 true false word l test ts None class f = Some x /\ exists p, In p l /\ shown false p = str "_ZTI" ++ class /\ x = word (at_ p + 16).
Proof.
  exists (fun a => a), [mksymbol (str "_ZTI1A") 0x3D00; mksymbol (str "_ZTV1T") 0x3D40], 0x3D50, (str "_ZTV1T"), (str "1A"), 1, 0x3D10.
  split; [intros q [<-|[<-|[]]]; discriminate|]. split; [reflexivity|]. exists (mksymbol (str "_ZTI1A") 0x3D00). repeat split. left. reflexivity.
Qed.
Print Assumptions C76_typeinfo_refuted.
