(** Model of syslog, options/posix/generic/syslog.cpp.  The calls to the kernel form a list of events, the last one first; [ans h] is the kernel's answer
    to the event at the head of [h]: a descriptor or -1 for socket and open, 0 or an error number for connect and send.  The text of a message is that
    produced by vsnprintf (Snprintf_*.v), [None] if that fails; the time text that of strftime (Ftime_*.v).  The lock is taken in every function but
    setlogmask; cancellation, errno and the log output of the failing connect are not modelled. *)
From Verif Require Import Base Mem_Model Inet_Model.
Open Scope Z_scope.

Definition LOG_PID : Z := 1.
Definition LOG_CONS : Z := 2.
Definition LOG_NDELAY : Z := 8.
Definition LOG_PERROR : Z := 32.
Definition LOG_USER : Z := 8.
Definition LOG_FACMASK : Z := 1016.

Inductive event := Socket | Connect (fd : Z) | Send (fd : Z) (l : list Z) | Close (fd : Z) | Info (l : list Z) | OpenConsole | Console (fd : Z) (l : list Z) | Stderr (l : list Z).
(** the static variables, syslog.cpp:20-27 *)
Record state := { log_ident : list Z; log_options : Z; log_facility : Z; log_fd : Z; log_opt : Z; log_mask : Z; use_mlibc_logger : bool }.
Definition init : state := {| log_ident := []; log_options := 0; log_facility := LOG_USER; log_fd := -1; log_opt := 0; log_mask := 255; use_mlibc_logger := false |}.
Definition set_fd (s : state) (fd : Z) (info : bool) : state :=
  {| log_ident := log_ident s; log_options := log_options s; log_facility := log_facility s; log_fd := fd; log_opt := log_opt s; log_mask := log_mask s; use_mlibc_logger := info |}.

Section Syslog.
Variable ans : list event -> Z.
Variable getpid : Z.
Definition st : Type := (state * list event)%type.

(** closelog, syslog.cpp:32-36 *)
Definition closelog (x : st) : st := let '(s, h) := x in (set_fd s (-1) (use_mlibc_logger s), Close (log_fd s) :: h).
(** __openlog, syslog.cpp:38-47 *)
Definition open_log (x : st) : st :=
  let '(s, h) := x in
  let h1 := Socket :: h in
  let fd := ans h1 in
  if 0 <=? fd then let h2 := Connect fd :: h1 in (set_fd s fd (if ans h2 =? 0 then use_mlibc_logger s else true), h2) else (set_fd s fd (use_mlibc_logger s), h1).
(** openlog, syslog.cpp:49-63 *)
Definition openlog (ident : option (list Z)) (options facility : Z) (x : st) : st :=
  let '(s, h) := x in
  let s := {| log_ident := (match ident with Some i => firstn 31 i | None => [] end); log_options := options; log_facility := facility; log_fd := log_fd s; log_opt := log_opt s;
              log_mask := log_mask s; use_mlibc_logger := use_mlibc_logger s |} in
  if negb (Z.land options LOG_NDELAY =? 0) && (log_fd s <? 0) then open_log (s, h) else (s, h).
(** setlogmask, syslog.cpp:65-71 *)
Definition setlogmask (mask : Z) (x : st) : Z * st :=
  let '(s, h) := x in
  (log_mask s, ({| log_ident := log_ident s; log_options := log_options s; log_facility := log_facility s; log_fd := log_fd s; log_opt := log_opt s; log_mask := mask;
                   use_mlibc_logger := use_mlibc_logger s |}, h)).

(** bytes written into the buffer of 1024 bytes *)
Definition wr (buf : list Z) (off : nat) (l : list Z) : res (list Z) :=
  if (off + length l <=? 1024)%nat then Ok (firstn off buf ++ l ++ skipn (off + length l) buf) else UB.
(** snprintf of a finished text at an offset, syslog.cpp:109-112 *)
Definition snprint (buf : list Z) (off : nat) (t : list Z) : res (list Z) :=
  if (1024 <? off)%nat then UB else if (1024 =? off)%nat then Ok buf else wr buf off (firstn (1024 - off - 1) t ++ [0]).
Definition dec (n : Z) : list Z := if n <? 0 then 45 :: num 10 (- n) else num 10 n.
Definition is_lost_conn (e : Z) : bool := (e =? 111) || (e =? 104) || (e =? 107) || (e =? 32).
Definition read_at (buf : list Z) (i : nat) : res Z := match nth_error buf i with Some c => Ok c | None => UB end.
Definition read_range (buf : list Z) (a n : nat) : res (list Z) := if (a + n <=? length buf)%nat then Ok (firstn n (skipn a buf)) else UB.
(** send, connect and send again, syslog.cpp:120-122: did it fail? *)
Definition deliver (fd : Z) (l : list Z) (h : list event) : bool * list event :=
  let h1 := Send fd l :: h in
  if ans h1 =? 0 then (false, h1)
  else if negb (is_lost_conn (ans h1)) then (true, h1)
  else let h2 := Connect fd :: h1 in
       if negb (ans h2 =? 0) then (true, h2)
       else let h3 := Send fd l :: h2 in (negb (ans h3 =? 0), h3).
(** syslog.cpp:92-93 *)
Definition connected (x : st) : st := if log_fd (fst x) <? 0 then open_log x else x.
(** _vsyslog, syslog.cpp:73-133 *)
Definition vsyslog_ (priority : Z) (time : list Z) (text : option (list Z)) (x : st) : res st :=
  if Z.land priority (log_mask (fst x)) =? 0 then Ok x
  else
    let '(s, h) := connected x in
    if use_mlibc_logger s then Ok (s, Info (firstn 1023 (match text with Some t => t | None => [] end)) :: h)
    else
      let priority := if Z.land priority LOG_FACMASK =? 0 then Z.lor priority (log_facility s) else priority in
      let pid := if Z.land (log_opt s) LOG_PID =? 0 then 0 else getpid in
      let head := [60] ++ dec priority ++ [62] ++ time ++ [32] in
      let hlen := length head in
      let header := head ++ log_ident s ++ (if pid =? 0 then [] else [91]) ++ (if pid =? 0 then [] else dec pid) ++ (if pid =? 0 then [] else [93]) ++ [58; 32] in
      let l := length header in
      buf <- snprint (repeat 170 1024) 0 header ;;
      buf <- snprint buf l (match text with Some t => t | None => [] end) ;;
      match text with
      | None => Ok (s, h)
      | Some t =>
          let l := if (1024 - l <=? length t)%nat then 1023%nat else (l + length t)%nat in
          c <- read_at buf (l - 1) ;;
          '(buf, l) <- (if negb (c =? 10) then b <- wr buf l [10] ;; Ok (b, S l) else Ok (buf, l)) ;;
          line <- read_range buf 0 l ;;
          rest <- read_range buf hlen (l - hlen) ;;
          let '(failed, h) := deliver (log_fd s) line h in
          let h := if failed && negb (Z.land (log_opt s) LOG_CONS =? 0)
                   then let h1 := OpenConsole :: h in if 0 <=? ans h1 then Close (ans h1) :: Console (ans h1) rest :: h1 else h1
                   else h in
          let h := if negb (Z.land (log_opt s) LOG_PERROR =? 0) then Stderr rest :: h else h in
          Ok (s, h)
      end.
(** vsyslog, syslog.cpp:142-151 *)
Definition vsyslog (priority : Z) (time : list Z) (text : option (list Z)) (x : st) : res st :=
  if (Z.land (log_mask (fst x)) (2 ^ (Z.land priority 7)) =? 0) || negb (Z.land priority (Z.lnot 1023) =? 0) then Ok x else vsyslog_ priority time text x.

(** the calls of a program *)
Inductive call := Openlog (ident : option (list Z)) (options facility : Z) | Closelog | Setlogmask (mask : Z) | Syslog (priority : Z) (time : list Z) (text : option (list Z)).
Definition step (c : call) (x : st) : res st :=
  match c with
  | Openlog i o f => Ok (openlog i o f x)
  | Closelog => Ok (closelog x)
  | Setlogmask m => Ok (snd (setlogmask m x))
  | Syslog p tm t => vsyslog p tm t x
  end.
Fixpoint run (cs : list call) (x : st) : res st := match cs with [] => Ok x | c :: r => y <- step c x ;; run r y end.
End Syslog.
