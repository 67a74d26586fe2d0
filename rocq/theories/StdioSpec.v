(** What calls put on which channel, according to the C library. *)
From Coq Require Import List NArith ZArith Bool Arith.
From Verif Require Import Base StdioModel.
Import ListNotations.
Local Open Scope N_scope.

Inductive channel := Out | Err | Log.
(** a C string in memory: the bytes before the first NUL, or all if there is none *)
Inductive cut : bytes -> bytes -> Prop :=
| Cut_all x : ~ In 0 x -> cut x x
| Cut_nul x r : ~ In 0 x -> cut (x ++ 0 :: r) x.
Definition of_fd (fd : Z) (ch : channel) : Prop := (fd = 1%Z /\ ch = Out) \/ (fd = 2%Z /\ ch = Err).
(** one write of a call: the descriptor and the bytes *)
Inductive writes : op -> list (Z * bytes) -> Prop :=
| W_write fd b : writes (Write fd b) [(fd, b)]
| W_fprintf fd t x : cut t x -> writes (Fprintf fd t) [(fd, x)]
| W_fputc c fd n : (c mod 256 = Z.of_N n)%Z -> writes (Fputc c fd) [(fd, [n])]
| W_fputs t x fd : cut t x -> writes (Fputs t fd) [(fd, x)]
| W_fwrite size nitems a b fd : length a = (size * nitems)%nat -> writes (Fwrite size nitems (a ++ b) fd) [(fd, a)]
| W_printf t x : cut t x -> writes (Printf t) [(1%Z, x)]
| W_putchar c n : (c mod 256 = Z.of_N n)%Z -> writes (Putchar c) [(1%Z, [n])]
| W_puts t x : cut t x -> writes (Puts t) [(1%Z, x); (1%Z, [10])]
| W_stream fd t : writes (Stream fd t) (map (fun c => (fd, [c])) t)
| W_syslog t : writes (Syslog t) []
| W_title b : writes (Title b) [].
(** the bytes on the channels that [sel] selects: those of stdout and stderr and the messages to syslog *)
Inductive says (sel : channel -> Prop) : op -> bytes -> Prop :=
| Says_writes o ws x : (forall t, o <> Syslog t) -> writes o ws -> picked sel ws x -> says sel o x
| Says_log t x : cut t x -> sel Log -> says sel (Syslog t) x
| Says_no_log t : ~ sel Log -> says sel (Syslog t) []
with picked (sel : channel -> Prop) : list (Z * bytes) -> bytes -> Prop :=
| P_nil : picked sel [] []
| P_take fd b ch r x : of_fd fd ch -> sel ch -> picked sel r x -> picked sel ((fd, b) :: r) (b ++ x)
| P_skip fd b r x : (forall ch, of_fd fd ch -> ~ sel ch) -> picked sel r x -> picked sel ((fd, b) :: r) x.
(** what a sequence of calls says, in order *)
Inductive says_all (sel : channel -> Prop) : list op -> bytes -> Prop :=
| All_nil : says_all sel [] []
| All_cons o x l y : says sel o x -> says_all sel l y -> says_all sel (o :: l) (x ++ y).
(** the writes of a sequence of calls *)
Inductive writes_all : list op -> list (Z * bytes) -> Prop :=
| WA_nil : writes_all [] []
| WA_cons o x l y : writes o x -> writes_all l y -> writes_all (o :: l) (x ++ y).
(** the channels that the second argument of H2COUT selects: all if there is none, else those named in it *)
Definition key (ch : channel) : bytes := match ch with Out => str "out" | Err => str "err" | Log => str "syslog" end.
Definition selects (type : bytes) (ch : channel) : Prop := type = [] \/ exists a b c, type = a ++ b ++ c /\ fold_str true b = fold_str true (key ch).
(** neither a begin nor an end of a capture nor a title of the report *)
Definition plain (o : op) : Prop := match o with Begin _ | End_ => False | _ => True end.
Definition no_title (o : op) : Prop := match o with Title _ => False | _ => True end.
(** the buffer of fwrite is long enough *)
Definition sound (o : op) : Prop := match o with Fwrite size nitems b _ => (size * nitems <= length b)%nat | _ => True end.
Definition user (fd : Z) : Prop := fd = 1%Z \/ fd = 2%Z.
(** the report's own descriptor is stdout *)
Definition redirect (w : Z * bytes) : Z * bytes := ((if Z.eq_dec (fst w) (-21371647) then 1 else fst w)%Z, snd w).
(** a newline before the first write of the user *)
Inductive parted : list (Z * bytes) -> list (Z * bytes) -> Prop :=
| Pt_none ws : (forall w, In w ws -> ~ user (fst w)) -> parted ws (map redirect ws)
| Pt_first a fd b c : (forall w, In w a -> ~ user (fst w)) -> user fd -> parted (a ++ (fd, b) :: c) (map redirect a ++ (fd, [10]) :: (fd, b) :: map redirect c).
(** the number of bytes that the writes of the user have *)
Inductive shown_bytes : list (Z * bytes) -> nat -> Prop :=
| Sb_nil : shown_bytes [] 0
| Sb_user fd b ws n : user fd -> shown_bytes ws n -> shown_bytes ((fd, b) :: ws) (length b + n)
| Sb_other fd b ws n : ~ user fd -> shown_bytes ws n -> shown_bytes ((fd, b) :: ws) n.
