(** Model of Ptx: h2_sock::check and failing (source/net/h2_socket.hpp:14-53, 59, source/net/h2_socket.cpp:240-243, 280-284).

    The addresses given to Ptx are texts; the matchers of the payload and of its length are parameters (Memcmp, Matcher and Num areas), that
    of the payload reads the bytes of the packet and the NUL behind them and may be undefined.  What the failure of a matcher says is a note
    (Mockmsg area). *)
From Coq Require Import List NArith ZArith Bool Arith.
From Verif Require Import Base LineModel MemcmpModel SockModel FailModel MockmsgModel.
Import ListNotations.
Local Open Scope N_scope.

(** one Ptx(...): its place, its text, the two patterns and the two matchers (h2_socket.hpp:15-16, 59); a matcher gives the failures it
    makes, first and its sublings *)
Record check := mkcheck { c_filine : bytes; c_text : bytes; c_from : bytes; c_to : bytes; c_payload : bytes -> option (list note); c_size : Z -> list note }.
(** We(pattern).matches(address) (h2_socket.hpp:26, 31, source/matcher/h2_matches_strcmp.cpp:26-32) *)
Definition address_fail (pattern address : bytes) : list note := if selects pattern address then [] else [Note None [] [] []].
(** if (f) f->explain = label (h2_socket.hpp:27-28, 32-33, 37-38, 42-43) *)
Definition labelled (label : bytes) (fs : list note) : list note := match fs with [] => [] | Note s _ p k :: r => Note s [label] p k :: r end.
(** size_t to int (h2_socket.hpp:41) *)
Definition to_int (n : N) : Z := let m := n mod 4294967296 in if m <? 2147483648 then Z.of_N m else (Z.of_N m - 4294967296)%Z.
(** the line of the failure (h2_socket.hpp:20-21, 47-48) *)
Definition title (what e : bytes) : line := [what] ++ printf_words (str "green") e ++ [str ")"].
(** what Ptx makes of the packet fetched; None: undefined (h2_socket.hpp:17-51) *)
Definition judge (c : check) (p : option packet) : option (option note) :=
  match p with
  | None => Some (Some (Note None (title (str "Outgoing packet miss Ptx(") (c_text c)) (c_filine c) []))
  | Some p =>
      match c_payload c (p_data p ++ [0]) with
      | None => None
      | Some payload =>
          let fails := labelled (str "from address") (address_fail (c_from c) (p_from p)) ++ labelled (str "to address") (address_fail (c_to c) (p_to p)) ++
                       labelled (str "payload") payload ++ labelled (str "payload length") (c_size c (to_int (N.of_nat (length (p_data p))))) in
          Some (match fails with [] => None | _ => Some (Note None (title (str "Outgoing packet unexpected Ptx(") (c_text c)) (c_filine c) fails) end)
      end
  end.
(** Ptx(...): fetch, check, count and raise (h2_socket.hpp:18, 52, h2_socket.cpp:240-243, 280-284) *)
Definition ptx (c : check) (s : net) (n : Z * Z * Z) : option (net * (Z * Z * Z) * option note) :=
  match step Fetch s with
  | Ok s' (Fetched p) => match judge c p with Some f => Some (s', count_assert n, f) | None => None end
  | _ => None
  end.
(** Me(buffer, count) of bytes given as payload (h2_socket.hpp:36, source/matcher/h2_matches_memcmp.hpp:14-42) *)
Definition me_payload (b : list N) (count : N) (a : bytes) : option (list note) :=
  match me false (Buffer (map Some b) 1) 0 count 0 (map Some a) with Some Match => Some [] | Some _ => Some [Note None [] [] []] | None => None end.
(** the length given as a number (h2_socket.hpp:41, Eq of int) *)
Definition size_is (n : Z) (a : Z) : list note := if (a =? n)%Z then [] else [Note None [] [] []].
