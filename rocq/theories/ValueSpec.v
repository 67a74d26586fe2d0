(** How values are to be shown (C79). *)
From Coq Require Import List NArith ZArith QArith Qabs Bool Arith.
From Verif Require Import Base LineSpec JunitSpec MessageSpec ValueModel.
Import ListNotations.
Local Open Scope N_scope.

(** the text of a whole number *)
Definition whole (z : Z) (t : bytes) : Prop := ((0 <= z)%Z /\ decimal t (Z.to_N z)) \/ ((z < 0)%Z /\ exists d, t = 45 :: d /\ decimal d (Z.to_N (- z))).
(** [n] millionths are nearest to a number; of two equally near the even one *)
Definition nearest (q : Q) (n : N) : Prop :=
  (Qabs (q * inject_Z 1000000 - inject_Z (Z.of_N n)) <= 1 # 2)%Q /\ ((Qabs (q * inject_Z 1000000 - inject_Z (Z.of_N n)) == 1 # 2)%Q -> N.even n = true).
(** the decimals of [m] millionths: none, or a point and digits of which the last is not 0 *)
Definition decimals (m : N) (f : bytes) : Prop :=
  (m = 0 /\ f = []) \/
  (m <> 0 /\ exists ds c, f = 46 :: ds ++ [c] /\ (length (ds ++ [c]) <= 6)%nat /\ Forall (fun c => 48 <= c <= 57) (ds ++ [c]) /\ c <> 48 /\
     fold_left (fun a c => 10 * a + (c - 48)) (ds ++ [c]) 0 * 10 ^ N.of_nat (6 - length (ds ++ [c])) = m).
(** the text of a number with a fraction *)
Definition fractional (q : Q) (t : bytes) : Prop :=
  exists n d f, nearest (Qabs q) n /\ t = (if Qle_bool 0 q then [] else [45]) ++ d ++ f /\ decimal d (n / 1000000) /\ decimals (n mod 1000000) f.

(** texts in which nothing is mistaken for an end or a colour *)
Definition sane (s : bytes) : Prop := ~ In 0 s /\ ~ In 27 s.
Inductive quiet : value -> Prop :=
| quiet_bool b : quiet (VBool b)
| quiet_int z : quiet (VInt z)
| quiet_real q : quiet (VReal q)
| quiet_nonfinite s : ~ In 46 s -> ~ In 27 s -> quiet (VNonfinite s)
| quiet_nullptr : quiet VNullptr
| quiet_text s : sane s -> quiet (VText s)
| quiet_null : quiet VNull
| quiet_char c : quiet (VChar c)
| quiet_wide l : Forall (fun c => (0 < c)%Z /\ c <> 27%Z) l -> quiet (VWide l)
| quiet_wchar c : (0 <= c)%Z -> quiet (VWchar c)
| quiet_object s : ~ In 27 s -> quiet (VObject s)
| quiet_streamed s : sane s -> quiet (VStreamed s)
| quiet_opaque : quiet VOpaque
| quiet_pair a b : quiet a -> quiet b -> quiet (VPair a b)
| quiet_seq l : Forall quiet l -> quiet (VSeq l)
| quiet_tuple l : Forall quiet l -> quiet (VTuple l).

(** wide characters beyond 255 are shown as question marks *)
Definition visible (c : Z) (b : byte) : Prop := (Z.of_N b = c /\ (c <= 255)%Z) \/ ((255 < c)%Z /\ b = 63).
(** with commas between *)
Fixpoint listed (st : styles) (os : list (list (styles * byte))) : list (styles * byte) :=
  match os with [] => [] | [o] => o | o :: r => o ++ grayed st (str ", ") ++ listed st r end.
(** text between quotation marks, if they are wanted *)
Definition between (st : styles) (represent : bool) (q : byte) (s : bytes) : list (styles * byte) :=
  if represent then grayed st [q] ++ letters st s ++ grayed st [q] else letters st s.
(** what is shown of a value where the styles [st] are in force *)
Inductive shown (st : styles) (represent : bool) : value -> list (styles * byte) -> Prop :=
| shown_true : shown st represent (VBool true) (letters st (str "true"))
| shown_false : shown st represent (VBool false) (letters st (str "false"))
| shown_int z t : whole z t -> shown st represent (VInt z) (letters st t)
| shown_real q t : fractional q t -> shown st represent (VReal q) (letters st t)
| shown_nonfinite s : shown st represent (VNonfinite s) (letters st s)
| shown_nullptr : shown st represent VNullptr (letters st (str "nullptr"))
| shown_text s : shown st represent (VText s) (between st represent 34 s)
| shown_null : shown st represent VNull (letters st (str "(null)"))
| shown_char c : shown st represent (VChar c) (between st represent 39 [c])
| shown_wide l s : Forall2 visible l s -> shown st represent (VWide l) (between st represent 34 s)
| shown_wchar c b : visible c b -> shown st represent (VWchar c) (between st represent 39 [b])
| shown_object s : shown st represent (VObject s) (between st represent 34 s)
| shown_streamed s : shown st represent (VStreamed s) (letters st s)
| shown_opaque : shown st represent VOpaque (letters st (str "?"))
| shown_pair a b x y : shown st represent a x -> shown st represent b y -> shown st represent (VPair a b) (grayed st (str "(") ++ x ++ grayed st (str ", ") ++ y ++ grayed st (str ")"))
| shown_seq l os : (length l <= 100)%nat -> Forall2 (shown st represent) l os -> shown st represent (VSeq l) (grayed st (str "[") ++ listed st os ++ grayed st (str "]"))
| shown_long l : (100 < length l)%nat -> shown st represent (VSeq l) (grayed st (str "[") ++ letters st (str "...") ++ grayed st (str "]"))
| shown_tuple l os : Forall2 (shown st represent) l os -> shown st represent (VTuple l) (grayed st (str "(") ++ listed st os ++ grayed st (str ")")).

(** values of a type that can be told apart: containers of at most 100 elements, numbers of at most six decimals *)
Inductive type := TBool | TInt | TReal | TText | TChar | TPair (a b : type) | TSeq (a : type) | TTuple (l : list type).
Inductive has : type -> value -> Prop :=
| has_bool b : has TBool (VBool b)
| has_int z : has TInt (VInt z)
| has_real z : has TReal (VReal (z # 1000000))
| has_text s : sane s -> has TText (VText s)
| has_null : has TText VNull
| has_char c : has TChar (VChar c)
| has_pair a b v w : has a v -> has b w -> has (TPair a b) (VPair v w)
| has_seq a l : (length l <= 100)%nat -> Forall (has a) l -> has (TSeq a) (VSeq l)
| has_tuple ts l : Forall2 has ts l -> has (TTuple ts) (VTuple l).
