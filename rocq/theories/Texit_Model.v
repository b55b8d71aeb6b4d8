(** Model of how a thread ends: thread_exit, thread_join, thread_detach, thread_testcancel and
    the thread_local destructor list (options/internal/generic/threads.cpp:35-64, 102-233,
    565-572), pthread_exit, pthread_cleanup_push/pop, pthread_setcancelstate,
    pthread_setcanceltype, pthread_cancel and the SIGCANCEL handler
    (options/posix/generic/pthread.cpp:420-474, 497-710), the thread entry
    (sysdeps/linux/generic/thread.cpp:10-24) and cancellable system calls
    (sysdeps/linux/x86_64/cp_syscall.S; the same order of instructions in the other five
    architectures; sysdeps/linux/generic/cxx-syscall.hpp:92-108, sysdeps.cpp:1636-1655).

    One thread, the target, is followed from its entry to its end; any number of other threads
    call pthread_cancel, pthread_join and pthread_detach on it at any time.  The target runs
    arbitrary code, between the calls above; handlers and destructors are user code too and may
    make any of these calls.

    Simplifications: sequentially consistent memory; cancelBits is a record of five booleans
    instead of an int with five flags; SIGCANCEL is sent only by pthread_cancel; it is delivered
    between any two steps when pending and not blocked, and interrupts a system call that is
    blocked in the kernel, which then returns EINTR; which destructors thread_exit runs for
    thread-specific keys is the subject of Keys_Model, here it is any sequence of user code; the
    target's TCB is never reused; a joiner may itself be cancelled, which ends it. *)
From Verif Require Export Conc.
Open Scope Z_scope.

(** tcb.hpp:40-49 *)
Record cb := Cb { en : bool; asy : bool; trg : bool; cng : bool; exi : bool }.

Definition cb_eqb (x y : cb) : bool :=
  Bool.eqb (en x) (en y) && Bool.eqb (asy x) (asy y) && Bool.eqb (trg x) (trg y) &&
  Bool.eqb (cng x) (cng y) && Bool.eqb (exi x) (exi y).

(** tcb.hpp:56-60, 75-78 *)
Definition tcb_async_cancelled (b : cb) : bool := en b && asy b && trg b.
Definition tcb_cancelled (b : cb) : bool := en b && trg b.

(** PTHREAD_CANCELED *)
Definition CANCELED : Z := -1.
Definition ESRCH : Z := 3.
Definition EINVAL : Z := 22.

(** why a thread ends *)
Inductive kind := Called | Returned | Cancelled.

(** what the target is executing: its start routine, or inside thread_exit a thread_local
    destructor, a cleanup handler, a key destructor, or the loop over the keys itself *)
Inductive level := Main | InTls | InCln | InKey | KeyLoop.

(** the calls that change cancelBits in a compare-exchange loop *)
Inductive call :=
| CType (a : bool)            (* pthread.cpp:580 pthread_setcanceltype *)
| CState (e : bool)           (* pthread.cpp:616 pthread_setcancelstate *)
| CExit (k : kind) (v : Z)    (* pthread.cpp:420 pthread_exit *)
| CSelf.                      (* pthread.cpp:662 pthread_cancel(pthread_self()) *)

Inductive tpc :=
| TStart                      (* thread.cpp:19 before cancellation is enabled *)
| TRun                        (* user code, or the key loop, at some level *)
| TCall (c : call) (old : cb) (* in the loop of [c] with the value last seen *)
| TMask (e : bool)            (* pthread.cpp:643-648 before sigprocmask *)
| TLoaded (b : cb)            (* cp_syscall.S: cancelBits is in a register, before
                                 __mlibc_syscall_begin *)
| TRange (b : cb)             (* between __mlibc_syscall_begin and the system call instruction *)
| TKernel                     (* in the system call *)
| TEnd (intr : bool)          (* at __mlibc_syscall_end; [intr]: the call returned EINTR *)
| TChk (intr : bool)          (* cxx-syscall.hpp:95-101 *)
| TExit (k : kind) (v : Z)    (* threads.cpp:191 entry of thread_exit *)
| TSet (k : kind) (v : Z)     (* threads.cpp:197 *)
| TTls                        (* threads.cpp:56 head of the loop over thread_local destructors *)
| TCln                        (* threads.cpp:201 head of the loop over cleanup handlers *)
| TStore                      (* threads.cpp:223 *)
| TDid                        (* threads.cpp:225 *)
| TWake                       (* threads.cpp:226 *)
| TDead.                      (* the kernel thread is gone *)

(** a thread other than the target *)
Inductive lpc :=
| LIdle
| LCancel (old : cb)          (* pthread.cpp:674 loop of pthread_cancel *)
| LSend                       (* pthread.cpp:692 before tgkill *)
| LCheck                      (* pthread.cpp:694 tgkill said ESRCH *)
| LJoin                       (* threads.cpp:149 the first look at isJoinable was fine *)
| LLoop                       (* threads.cpp:154 *)
| LWait                       (* threads.cpp:155 before FutexWait *)
| LSleep                      (* asleep in FutexWait *)
| LGot                        (* threads.cpp:159 didExit was seen *)
| LDet                        (* threads.cpp:176 *)
| LGone.                      (* a joiner that was cancelled *)

(** What happened, for the record; the code does not keep it.  Newest first. *)
Inductive event :=
| EPush (h : Z)               (* pthread_cleanup_push *)
| EPop (h : Z)                (* pthread_cleanup_pop removed h *)
| EAtexit (h : Z)             (* __cxa_thread_atexit_impl *)
| ERunTls (h : Z)             (* thread_exit calls a thread_local destructor *)
| ERunCln (h : Z)             (* thread_exit calls a cleanup handler *)
| ESetCall (e : bool)         (* pthread_setcancelstate is called: true = ENABLE *)
| ESetRet (e : bool)          (* it has returned *)
| ETypeRet (a : bool)         (* pthread_setcanceltype has returned: true = ASYNCHRONOUS *)
| EEffect                     (* a cancellable system call has been carried out *)
| ESysRet (done : bool)       (* a cancellable system call has returned *)
| EExit (k : kind) (v : Z)    (* the thread begins to end, with this value *)
| EDid                        (* its end is published *)
| EDead                       (* the thread is gone *)
| ECancelCall (t : Z)         (* pthread_cancel on the target is called *)
| ECancelRet (t r : Z)        (* and has returned r *)
| EJoinRet (t v : Z)          (* pthread_join on the target returned 0 and the value v *)
| EJoinErr (t : Z)            (* pthread_join returned EINVAL *)
| EDetach (t : Z)             (* pthread_detach returned 0 *)
| EDetachErr (t : Z).         (* pthread_detach returned EINVAL *)

Record state := St {
  bits : cb; pend : bool; mask : bool; joinable : bool; did : bool; rv : Z; xv : Z;
  tls : list Z; cln : list Z; tp : tpc; sg : option cb; lvl : level; loc : Z -> lpc;
  log : list event }.

Inductive act :=
| ARun | AWeak                                   (* go on; a weak compare-exchange fails *)
| UPush (h : Z) | UPop | UAtexit (h : Z) | UType (a : bool) | UState (e : bool) | UExit (v : Z)
| UReturn (v : Z) | UTest | USys | USelf | UHRet | UDtor | UKeysDone
| KDone | KIntr | Deliver                        (* the kernel *)
| OCancel | OJoin | ODetach | OSpur | OGone.     (* other threads *)

(** The state in which the start routine is about to begin: thread_create stored 0 in cancelBits
    and set isJoinable from the attributes (threads.cpp:131-132); the signal mask is inherited. *)
Definition init (blocked join : bool) : state :=
  St (Cb false false false false false) false blocked join false 0 0 [] [] TStart None Main
     (fun _ => LIdle) [].

(** record updates *)
Definition w_bits (b : cb) (s : state) : state :=
  St b (pend s) (mask s) (joinable s) (did s) (rv s) (xv s) (tls s) (cln s) (tp s) (sg s) (lvl s) (loc s) (log s).
Definition w_pend (x : bool) (s : state) : state :=
  St (bits s) x (mask s) (joinable s) (did s) (rv s) (xv s) (tls s) (cln s) (tp s) (sg s) (lvl s) (loc s) (log s).
Definition w_mask (x : bool) (s : state) : state :=
  St (bits s) (pend s) x (joinable s) (did s) (rv s) (xv s) (tls s) (cln s) (tp s) (sg s) (lvl s) (loc s) (log s).
Definition w_joinable (x : bool) (s : state) : state :=
  St (bits s) (pend s) (mask s) x (did s) (rv s) (xv s) (tls s) (cln s) (tp s) (sg s) (lvl s) (loc s) (log s).
Definition w_did (x : bool) (s : state) : state :=
  St (bits s) (pend s) (mask s) (joinable s) x (rv s) (xv s) (tls s) (cln s) (tp s) (sg s) (lvl s) (loc s) (log s).
Definition w_rv (x : Z) (s : state) : state :=
  St (bits s) (pend s) (mask s) (joinable s) (did s) x (xv s) (tls s) (cln s) (tp s) (sg s) (lvl s) (loc s) (log s).
Definition w_xv (x : Z) (s : state) : state :=
  St (bits s) (pend s) (mask s) (joinable s) (did s) (rv s) x (tls s) (cln s) (tp s) (sg s) (lvl s) (loc s) (log s).
Definition w_tls (x : list Z) (s : state) : state :=
  St (bits s) (pend s) (mask s) (joinable s) (did s) (rv s) (xv s) x (cln s) (tp s) (sg s) (lvl s) (loc s) (log s).
Definition w_cln (x : list Z) (s : state) : state :=
  St (bits s) (pend s) (mask s) (joinable s) (did s) (rv s) (xv s) (tls s) x (tp s) (sg s) (lvl s) (loc s) (log s).
Definition w_tp (x : tpc) (s : state) : state :=
  St (bits s) (pend s) (mask s) (joinable s) (did s) (rv s) (xv s) (tls s) (cln s) x (sg s) (lvl s) (loc s) (log s).
Definition w_sg (x : option cb) (s : state) : state :=
  St (bits s) (pend s) (mask s) (joinable s) (did s) (rv s) (xv s) (tls s) (cln s) (tp s) x (lvl s) (loc s) (log s).
Definition w_lvl (x : level) (s : state) : state :=
  St (bits s) (pend s) (mask s) (joinable s) (did s) (rv s) (xv s) (tls s) (cln s) (tp s) (sg s) x (loc s) (log s).
Definition w_loc (x : Z -> lpc) (s : state) : state :=
  St (bits s) (pend s) (mask s) (joinable s) (did s) (rv s) (xv s) (tls s) (cln s) (tp s) (sg s) (lvl s) x (log s).
Definition ev (e : event) (s : state) : state :=
  St (bits s) (pend s) (mask s) (joinable s) (did s) (rv s) (xv s) (tls s) (cln s) (tp s) (sg s) (lvl s) (loc s) (e :: log s).

(** __mlibc_do_cancel (threads.cpp:47-50) *)
Definition do_cancel (s : state) : state := w_tp (TExit Cancelled CANCELED) s.

(** the new values computed in the loops *)
Definition set_asy (a : bool) (b : cb) : cb := Cb (en b) a (trg b) (cng b) (exi b).    (* pthread.cpp:587-589 *)
Definition set_en (e : bool) (b : cb) : cb := Cb e (asy b) (trg b) (cng b) (exi b).    (* pthread.cpp:623-625 *)
Definition clr_cancel (b : cb) : cb := Cb false false (trg b) (cng b) (exi b).         (* pthread.cpp:429 *)
Definition set_trg (b : cb) : cb := Cb (en b) (asy b) true (cng b) (exi b).            (* pthread.cpp:675-677 *)
Definition set_cng (b : cb) : cb := Cb (en b) (asy b) true true (exi b).               (* pthread.cpp:530-532 *)
Definition set_exi (b : cb) : cb := Cb (en b) (asy b) (trg b) (cng b) true.            (* threads.cpp:197 *)

(** what a loop does when there is nothing to change, and after a successful exchange *)
Definition call_new (c : call) (old : cb) : cb :=
  match c with
  | CType a => set_asy a old
  | CState e => set_en e old
  | CExit _ _ => clr_cancel old
  | CSelf => set_trg old
  end.

Definition call_same (c : call) (s : state) : state :=
  match c with
  | CType a => ev (ETypeRet a) (w_tp TRun s)                                  (* pthread.cpp:597-598 *)
  | CState e => ev (ESetRet e) (w_tp TRun s)                                  (* pthread.cpp:633-634 *)
  | CExit k v => w_tp (TExit k v) s                                           (* pthread.cpp:432-433, 444 *)
  | CSelf => ev (ECancelRet 0 0) (w_tp TRun s)                                (* pthread.cpp:678-679, 709 *)
  end.

Definition call_done (c : call) (s : state) : state :=
  match c with
  | CType a =>                                                                (* pthread.cpp:604-607 *)
      if tcb_async_cancelled (bits s) then do_cancel s else ev (ETypeRet a) (w_tp TRun s)
  | CState e =>                                                               (* pthread.cpp:640-641 *)
      if tcb_async_cancelled (bits s) then do_cancel s else w_tp (TMask e) s
  | CExit k v => w_tp (TExit k v) s
  | CSelf =>                                                                  (* pthread.cpp:684-689 *)
      if en (bits s) && asy (bits s) then w_tp (TCall (CExit Cancelled CANCELED) (bits s)) s
      else ev (ECancelRet 0 0) (w_tp TRun s)
  end.

(** one turn of such a loop *)
Definition call_step (weak : bool) (c : call) (old : cb) (s : state) : state :=
  let new := call_new c old in
  if cb_eqb old new then call_same c s
  else if cb_eqb (bits s) old && negb weak then call_done c (w_bits new s)
  else w_tp (TCall c (bits s)) s.

(** user code of the target, at the current level *)
Definition user_step (a : act) (s : state) : option state :=
  match lvl s, a with
  | KeyLoop, UDtor => Some (w_lvl InKey s)                                    (* threads.cpp:215 *)
  | KeyLoop, UKeysDone => Some (w_tp TStore s)                                (* threads.cpp:207 *)
  | KeyLoop, USys => Some (w_tp (TLoaded (bits s)) s)   (* key_mutex_.lock() has to wait: FutexWait
                                                           is a cancellable call, sysdeps.cpp:310 *)
  | KeyLoop, _ => None
  | InTls, UHRet => Some (w_tp TTls s)
  | InCln, UHRet => Some (w_tp TCln s)
  | InKey, UHRet => Some (w_lvl KeyLoop s)
  | Main, UReturn v => Some (w_tp (TExit Returned v) (w_rv v s))              (* thread.cpp:21-23 *)
  | _, UPush h => Some (ev (EPush h) (w_cln (h :: cln s) s))                  (* pthread.cpp:455-462 *)
  | _, UPop =>                                                                (* pthread.cpp:464-473 *)
      match cln s with h :: r => Some (ev (EPop h) (w_cln r s)) | [] => None end
  | _, UAtexit h => Some (ev (EAtexit h) (w_tls (h :: tls s) s))              (* threads.cpp:35-45 *)
  | _, UType a => Some (w_tp (TCall (CType a) (bits s)) s)
  | _, UState e => Some (ev (ESetCall e) (w_tp (TCall (CState e) (bits s)) s))
  | _, UExit v => Some (w_tp (TCall (CExit Called v) (bits s)) s)
  | _, USelf => Some (ev (ECancelCall 0) (w_tp (TCall CSelf (bits s)) s))
  | _, UTest => Some (if tcb_cancelled (bits s) then do_cancel s else s)      (* threads.cpp:565-572 *)
  | _, USys => Some (w_tp (TLoaded (bits s)) s)
  | _, _ => None
  end.

Definition wake (p : lpc) : lpc := match p with LSleep => LLoop | _ => p end.

(** the target, outside the signal handler *)
Definition target_step (a : act) (s : state) : option state :=
  match tp s, a with
  | TStart, ARun => Some (w_tp TRun (w_bits (set_en true (bits s)) s))
  | TRun, _ => user_step a s
  | TCall c old, ARun => Some (call_step false c old s)
  | TCall c old, AWeak => Some (call_step true c old s)
  | TMask e, ARun => Some (ev (ESetRet e) (w_tp TRun (w_mask (negb e) s)))
  | TLoaded b, ARun => Some (w_tp (TRange b) s)
  | TRange b, ARun => Some (if tcb_cancelled b then do_cancel s else w_tp TKernel s)
  | TKernel, KDone => Some (ev EEffect (w_tp (TEnd false) s))
  | TKernel, KIntr => Some (w_tp (TEnd true) s)
  | TEnd i, ARun => Some (w_tp (TChk i) s)
  | TChk i, ARun =>
      Some (if i && tcb_cancelled (bits s) then do_cancel s else ev (ESysRet (negb i)) (w_tp TRun s))
  | TExit k v, ARun =>                                                        (* threads.cpp:194-195 *)
      Some (if exi (bits s) then ev EDead (w_tp TDead s) else w_tp (TSet k v) s)
  | TSet k v, ARun =>                                                         (* threads.cpp:197 *)
      Some (ev (EExit k v) (w_tp TTls (w_lvl InTls (w_xv v (w_bits (set_exi (bits s)) s)))))
  | TTls, ARun =>                                                             (* threads.cpp:56-62 *)
      Some match tls s with
           | h :: r => ev (ERunTls h) (w_tp TRun (w_lvl InTls (w_tls r s)))
           | [] => w_tp TCln (w_lvl InCln s)
           end
  | TCln, ARun =>                                                             (* threads.cpp:201-205 *)
      Some match cln s with
           | h :: r => ev (ERunCln h) (w_tp TRun (w_lvl InCln (w_cln r s)))
           | [] => w_tp TRun (w_lvl KeyLoop s)
           end
  | TStore, ARun => Some (w_tp TDid (w_rv (xv s) s))
  | TDid, ARun => Some (ev EDid (w_tp TWake (w_did true s)))
  | TWake, ARun => Some (ev EDead (w_tp TDead (w_loc (wake_with wake (loc s)) s)))
  | _, _ => None
  end.

(** sysdeps.cpp:1652 the program counter is between the two labels, the second one included *)
Definition in_range (p : tpc) : bool :=
  match p with TRange _ | TEnd _ => true | _ => false end.

Definition is_dead (p : tpc) : bool := match p with TDead => true | _ => false end.

(** the kernel delivers SIGCANCEL; pthread.cpp:501-528 *)
Definition deliver (s : state) : option state :=
  if pend s && negb (mask s) && negb (is_dead (tp s)) then
    let p := match tp s with TKernel => TEnd true | p => p end in
    let s' := w_tp p (w_pend false s) in
    if negb (asy (bits s)) && negb (in_range p) then Some s' else Some (w_sg (Some (bits s)) s')
  else None.

(** the loop of the signal handler; pthread.cpp:531-549.  SIGCANCEL stays blocked when the
    handler does not return. *)
Definition handler_step (weak : bool) (old : cb) (s : state) : state :=
  let new := set_cng old in
  if cb_eqb old new || exi old then w_sg None s
  else if cb_eqb (bits s) old && negb weak
       then do_cancel (w_mask true (w_sg None (w_rv CANCELED (w_bits new s))))
       else w_sg (Some (bits s)) s.

(** a thread other than the target *)
Definition other_step (t : Z) (a : act) (s : state) : option state :=
  let go p s := Some (w_loc (setf (loc s) t p) s) in
  match loc s t, a with
  | LIdle, OCancel => go (LCancel (bits s)) (ev (ECancelCall t) s)            (* pthread.cpp:672 *)
  | LCancel old, ARun =>
      let new := set_trg old in
      if cb_eqb old new then go LIdle (ev (ECancelRet t 0) s)
      else if cb_eqb (bits s) old then
        if en new then go LSend (w_bits new s) else go LIdle (ev (ECancelRet t 0) (w_bits new s))
      else go (LCancel (bits s)) s
  | LCancel old, AWeak => go (LCancel (bits s)) s
  | LSend, ARun =>                                                            (* pthread.cpp:692 *)
      if is_dead (tp s) then go LCheck s else go LIdle (ev (ECancelRet t 0) (w_pend true s))
  | LCheck, ARun =>                                                           (* pthread.cpp:694-702 *)
      go LIdle (ev (ECancelRet t (if exi (bits s) then 0 else ESRCH)) s)
  | LIdle, OJoin => if joinable s then go LJoin s else go LIdle (ev (EJoinErr t) s)   (* threads.cpp:144-147 *)
  | LJoin, ARun => if joinable s then go LLoop s else go LIdle (ev (EJoinErr t) s)    (* threads.cpp:149 *)
  | LLoop, ARun => if did s then go LGot s else go LWait s                    (* threads.cpp:154 *)
  | LWait, ARun => if did s then go LLoop s else go LSleep s                  (* threads.cpp:155 *)
  | LSleep, OSpur => go LLoop s
  | LLoop, OGone | LWait, OGone | LSleep, OGone => go LGone s                 (* threads.cpp:152, 156 *)
  | LGot, ARun => go LIdle (ev (EJoinRet t (rv s)) s)                         (* threads.cpp:159-166 *)
  | LIdle, ODetach => if joinable s then go LDet s else go LIdle (ev (EDetachErr t) s)
  | LDet, ARun =>                                                             (* threads.cpp:175-178 *)
      if joinable s then go LIdle (ev (EDetach t) (w_joinable false s))
      else go LIdle (ev (EDetachErr t) s)
  | _, _ => None
  end.

(** thread 0 is the target *)
Definition step (t : Z) (a : act) (s : state) : option state :=
  if t =? 0 then
    match sg s with
    | Some old =>
        match a with
        | ARun => Some (handler_step false old s)
        | AWeak => Some (handler_step true old s)
        | _ => None
        end
    | None => match a with Deliver => deliver s | _ => target_step a s end
    end
  else other_step t a s.

Definition reachable (blocked join : bool) (s : state) : Prop :=
  exists sched, run step sched (init blocked join) = Some s.

(** The rule for what runs inside thread_exit: no cancellation point is reached while cancellation
    is enabled, cancellation is not enabled again or made asynchronous, and pthread_exit and
    pthread_cancel(pthread_self()) are not called. *)
Definition polite (s : state) (t : Z) (a : act) : bool :=
  match lvl s with
  | Main => true
  | _ =>
      match a with
      | UTest | USys => negb (en (bits s)) || negb (t =? 0)
      | UState true | UType true | UExit _ | USelf => negb (t =? 0)
      | _ => true
      end
  end.

Definition reachable_polite (blocked join : bool) (s : state) : Prop :=
  exists sched, run (guarded polite step) sched (init blocked join) = Some s.

(** The rule under which blocked system calls are cancelled: with deferred cancellation the signal
    is not delivered between the load of cancelBits and __mlibc_syscall_begin. *)
Definition no_gap (s : state) (t : Z) (a : act) : bool :=
  match a, tp s with Deliver, TLoaded _ => asy (bits s) || negb (t =? 0) | _, _ => true end.

Definition reachable_no_gap (blocked join : bool) (s : state) : Prop :=
  exists sched, run (guarded no_gap step) sched (init blocked join) = Some s.
