(** Model of the sockets of builtins/net.c and the directories of builtins/files.c.
    Simplifications: the system is any machine that answers the calls it is asked for, with a state of its own; the text of strerror is
    part of the answer. The transfers (recv, send) are in IoModel.v. An open directory is the list of what readdir will answer. *)
From Coq Require Import ZArith String List Bool.
From Verif Require Import Base Utf8Model StringModel ValueModel ObjModel VmModel SysModel BuiltinModel.
Import ListNotations.
Open Scope Z_scope.

(** net.c:22-187, the calls: socket, setsockopt with SO_REUSEADDR, inet_pton, bind, listen, accept, close. A failure carries the text of
    strerror(errno). An address is given by its four bytes, a port by its number. inet_pton gives the address, or nothing when the text is not one. *)
Record kernel (S : Type) := mkkernel {
  k_socket : S -> Z -> Z -> Z -> S * (Z + list Z);
  k_reuse : S -> Z -> S * option (list Z);
  k_pton : list Z -> option (Z * Z * Z * Z);
  k_bind : S -> Z -> Z -> Z * Z * Z * Z -> S * option (list Z);
  k_listen : S -> Z -> Z -> S * option (list Z);
  k_accept : S -> Z -> S * (Z * (Z * Z * Z * Z) * Z + list Z);
  k_close : S -> Z -> S * Z }.
Arguments k_socket {S}.
Arguments k_reuse {S}.
Arguments k_pton {S}.
Arguments k_bind {S}.
Arguments k_listen {S}.
Arguments k_accept {S}.
Arguments k_close {S}.

(** net.c:63, 171 htons and its inverse on a little-endian machine: the two bytes are exchanged. *)
Definition swap16 (p : Z) : Z := (p mod 256) * 256 + (p / 256) mod 256.
(** net.c:171: the four bytes of an address, read as a number by a little-endian machine. *)
Definition addr_number (a : Z * Z * Z * Z) : Z := let '(a0, a1, a2, a3) := a in a0 + a1 * 256 + a2 * 65536 + a3 * 16777216.

(** utils.c:3-33 returnValuesVA with the format "ns". *)
Definition none_msg (msg : list Z) : out (list value) := obind (vstring msg) (fun v => OOk [VNone; v]).
(** utils.c:3-33 returnValuesVA with the format "s". *)
Definition just_msg (msg : list Z) : out (list value) := obind (vstring msg) (fun v => OOk [v]).

(** net.c:51: the message. *)
Definition bad_family : list Z := bytes_of "Invalid family (only AF_INET is supported at the moment)".
(** net.c:60: the message. *)
Definition bad_address : list Z := bytes_of "Invalid address".
(** net.c:192: AF_INET of Linux. *)
Definition AF_INET : Z := 2.

Section Net.
Variable S : Type.
Variable K : kernel S.
Variable objs : list hobj.

(** net.c:10-34 bin_socket. *)
Definition bin_socket (s : S) (argv : list value) : S * out (list value) :=
  match parse_args objs (bytes_of "iii?b") argv with
  | OOk [PgInt d; PgInt t; PgInt p; r] =>
    match k_socket K s (wrap32 d) (wrap32 t) (wrap32 p) with
    | (s1, inr msg) => (s1, none_msg msg)
    | (s1, inl fd) =>
      match r with
      | PgBool true =>
        match k_reuse K s1 fd with
        | (s2, Some msg) => (s2, none_msg msg)
        | (s2, None) => (s2, OOk [ret_int fd])
        end
      | _ => (s1, OOk [ret_int fd])
      end
    end
  | OOk _ => (s, OUB)
  | OErr => (s, OErr)
  | OUB => (s, OUB)
  | OLoop => (s, OLoop)
  | OFuel => (s, OFuel)
  end.

(** net.c:36-74 bin_bind: the port is converted to 16 bits by htons. The address is read up to its first zero byte. *)
Definition bin_bind (s : S) (argv : list value) : S * out (list value) :=
  match parse_args objs (bytes_of "iii?s") argv with
  | OOk [PgInt fd; PgInt family; PgInt port; a] =>
    if negb (wrap32 family =? AF_INET) then (s, none_msg bad_family) else
    match (match a with
           | PgStr t => match c_string (t ++ [0]) with Some c => k_pton K c | None => None end
           | _ => Some (0, 0, 0, 0)
           end) with
    | None => (s, none_msg bad_address)
    | Some addr =>
      match k_bind K s (wrap32 fd) (wrap32 port mod 65536) addr with
      | (s1, Some msg) => (s1, just_msg msg)
      | (s1, None) => (s1, OOk [VNone])
      end
    end
  | OOk _ => (s, OUB)
  | OErr => (s, OErr)
  | OUB => (s, OUB)
  | OLoop => (s, OLoop)
  | OFuel => (s, OFuel)
  end.

(** net.c:76-92 bin_listen. *)
Definition bin_listen (s : S) (argv : list value) : S * out (list value) :=
  match parse_args objs (bytes_of "ii") argv with
  | OOk [PgInt fd; PgInt backlog] =>
    match k_listen K s (wrap32 fd) (wrap32 backlog) with
    | (s1, Some msg) => (s1, just_msg msg)
    | (s1, None) => (s1, OOk [VNone])
    end
  | OOk _ => (s, OUB)
  | OErr => (s, OErr)
  | OUB => (s, OUB)
  | OLoop => (s, OLoop)
  | OFuel => (s, OFuel)
  end.

(** net.c:154-174 bin_accept: the address and the port are given as they lie in memory. *)
Definition bin_accept (s : S) (argv : list value) : S * out (list value) :=
  match parse_args objs (bytes_of "i") argv with
  | OOk [PgInt fd] =>
    match k_accept K s (wrap32 fd) with
    | (s1, inr msg) => (s1, none_msg msg)
    | (s1, inl (new, addr, port)) => (s1, OOk [ret_int new; ret_int (addr_number addr); ret_int (swap16 port)])
    end
  | OOk _ => (s, OUB)
  | OErr => (s, OErr)
  | OUB => (s, OUB)
  | OLoop => (s, OLoop)
  | OFuel => (s, OFuel)
  end.

(** net.c:177-189 bin_close. *)
Definition bin_close (s : S) (argv : list value) : S * out (list value) :=
  match parse_args objs (bytes_of "i") argv with
  | OOk [PgInt fd] => let (s1, r) := k_close K s (wrap32 fd) in (s1, OOk [ret_int r])
  | OOk _ => (s, OUB)
  | OErr => (s, OErr)
  | OUB => (s, OUB)
  | OLoop => (s, OLoop)
  | OFuel => (s, OFuel)
  end.

(** net.c:191-203: the functions. *)
Inductive netfun := NSocket | NBind | NListen | NAccept | NClose.
(** net.c:191-203 the column argc. *)
Definition net_argc (f : netfun) : nat := match f with NSocket | NBind => 4 | NListen => 2 | NAccept | NClose => 1 end.
(** net.c:191-203, run.c:218-262: a call from a program; missing arguments are none. *)
Definition net_call (f : netfun) (s : S) (argv : list value) : S * out (list value) :=
  let argv := argv ++ repeat VNone (net_argc f - List.length argv) in
  match f with
  | NSocket => bin_socket s argv
  | NBind => bin_bind s argv
  | NListen => bin_listen s argv
  | NAccept => bin_accept s argv
  | NClose => bin_close s argv
  end.
(** net.c:191-203: several calls, until one ends with an error. *)
Fixpoint net_calls (s : S) (cs : list (netfun * list value)) : S * list (netfun * list value * list value) * bool :=
  match cs with
  | [] => (s, [], true)
  | (f, argv) :: r =>
    match net_call f s argv with
    | (s1, OOk vs) => let '(s2, l, ok) := net_calls s1 r in (s2, (f, argv, vs) :: l, ok)
    | (s1, _) => (s1, [], false)
    end
  end.
End Net.

(** * Directories *)

(** files.c:229-238: what readdir answers: an entry with its name, or a failure. Behind the last one it answers nothing. *)
Inductive dirans := DName (name : list Z) | DFails.

(** files.c:175-208 bin_openDir. [opendir]: the directories there are. The path ends at its first zero byte. *)
Definition bin_open_dir (opendir : list Z -> option (list dirans)) (argv : list value) : out (option (list dirans)) :=
  match argv with
  | VStr p :: _ => match c_string (p ++ [0]) with Some c => OOk (opendir c) | None => OUB end
  | _ :: _ => OErr
  | [] => OUB
  end.

(** files.c:210-241 bin_nextDirItem on an open directory: the results and what is left of the directory. *)
Definition bin_next_dir_item (d : list dirans) : list dirans * out (list value) :=
  match d with
  | [] => ([], OOk [])
  | DFails :: r => (r, OErr)
  | DName n :: r => (r, obind (vstring n) (fun v => OOk [v]))
  end.

(** files.c:210-241: [n] calls in a row. *)
Fixpoint dir_items (n : nat) (d : list dirans) : out (list (list value)) :=
  match n with
  | O => OOk []
  | S k => let (d1, o) := bin_next_dir_item d in obind o (fun vs => obind (dir_items k d1) (fun r => OOk (vs :: r)))
  end.
