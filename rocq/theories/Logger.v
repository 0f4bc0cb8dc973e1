(** * Logger (/repo/core/include/humoto/logger.h): stream handling and the thread which writes messages *)
From Coq Require Import String List Arith Bool.
From Verif Require Import Base.
Import ListNotations.

(** ** LoggerBase *)
(** where written data ends up: a stream of the user, a file, or nowhere (a file stream in a failed state ignores writes) (logger.h:287-318) *)
Inductive dest := ToStream (s : nat) | ToFile (f : string) | Nowhere.
(** output_stream_: a stream of the user (identified by a number) or output_file_stream_ (logger.h:287-291) *)
Inductive target := UserStream (s : nat) | OwnFile.
(** logger.h:287-291, 350: [ofs_file] is the file opened in output_file_stream_, [ofs_fail] its failbit *)
Record lbase := mkBase { file_stream_is_open : bool; ofs_file : option string; ofs_fail : bool; output_stream : option target }.
(** logger.h:357-361 *)
Definition base_default : lbase := mkBase false None false None.
(** logger.h:409-415; the precision of the stream (299-302) is not modelled *)
Definition base_init_stream (s : nat) (b : lbase) : lbase := mkBase false (ofs_file b) (ofs_fail b) (Some (UserStream s)).
(** logger.h:423-435.  std::ofstream::open fails if a file is open already (standard) or if the file cannot be created
    ([fs] = false); it sets failbit on failure and clears it on success. The second component: no exception. *)
Definition base_init_file (f : string) (fs : bool) (b : lbase) : lbase * bool :=
  match ofs_file b with
  | Some _ => (mkBase true (ofs_file b) true (output_stream b), false)
  | None => if fs then (mkBase true (Some f) false (Some OwnFile), true)
            else (mkBase true None true (output_stream b), false)
  end.
(** logger.h:310-318 (called by the destructor only) *)
Definition base_clean (b : lbase) : lbase :=
  mkBase (file_stream_is_open b) (if file_stream_is_open b then None else ofs_file b) (ofs_fail b) None.
(** writing through output_stream_; [None]: null pointer (logger.h:409-435) *)
Definition base_dest (b : lbase) : option dest :=
  match output_stream b with
  | None => None
  | Some (UserStream s) => Some (ToStream s)
  | Some OwnFile => Some (if ofs_fail b then Nowhere else match ofs_file b with Some f => ToFile f | None => Nowhere end)
  end.

(** ** the logger without threads (logger.h:879-962) *)
Section Basic.
  Variable M : Type.
  (** initialize(stream), initialize(file) with the answer of the file system, log(message) *)
  Inductive basic_op := BStream (s : nat) | BFile (f : string) (fs : bool) | BLog (m : M).
  (** exceptions are caught by the user, who goes on; the result: the state, everything written so far, and how many
      exceptions there were *)
  Record basic := mkBasic { bbase : lbase; boutput : list (dest * M); bthrown : nat }.
  Definition basic_step (op : basic_op) (l : basic) : outcome basic :=
    match op with
    | BStream s => Ok (mkBasic (base_init_stream s (bbase l)) (boutput l) (bthrown l))
    | BFile f fs => let r := base_init_file f fs (bbase l) in
                    Ok (mkBasic (fst r) (boutput l) (if snd r then bthrown l else S (bthrown l)))
    | BLog m => match base_dest (bbase l) with
                | None => UB                                      (* 918-922: dereferences output_stream_ *)
                | Some d => Ok (mkBasic (bbase l) (boutput l ++ [(d, m)]) (bthrown l))
                end
    end.
  Fixpoint basic_run (ops : list basic_op) (l : basic) : outcome basic :=
    match ops with [] => Ok l | op :: rest => bind (basic_step op l) (basic_run rest) end.
  Definition basic_default : basic := mkBasic base_default [] 0.
End Basic.
Arguments BStream {M}. Arguments BFile {M}. Arguments BLog {M}. Arguments basic_run {M}. Arguments basic_step {M}.
Arguments boutput {M}. Arguments bthrown {M}. Arguments bbase {M}. Arguments mkBasic {M}. Arguments basic_default {M}.

(** ** the threaded logger (logger.h:555-874)
    Sequentially consistent interleaving of any number of producers, the logging thread and the thread which owns the logger.
    One action is one access to shared data (mutex, queue, flag, stream) of one thread. *)
Section Threaded.
  Variable M : Type.
  Inductive thread := Consumer | Producer (p : nat).
  (** a producer in pushMessage, 576-581: before lock(), before push(), before unlock() *)
  Inductive ppc := POut | PLock (m : M) | PPush (m : M) | PUnlock.
  (** processQueue, 587-637, [stop] is the local variable stop_thread, [n] the number of messages left to be popped *)
  Inductive cpc :=
  | CNone                                  (* no thread *)
  | CTop (stop : bool)                     (* 596: reads interrupted_ *)
  | CLock (stop : bool)                    (* 601 *)
  | CSize (stop : bool)                    (* 602 *)
  | CUnlock (stop : bool) (n : nat)        (* 603 *)
  | CTest (stop : bool) (n : nat)          (* 606-612 *)
  | CPopLock (stop : bool) (n : nat)       (* 616, 620 *)
  | CPop (stop : bool) (n : nat)           (* 621-622 *)
  | CPopUnlock (stop : bool) (n : nat) (m : M) (* 623 *)
  | CWrite (stop : bool) (n : nat) (m : M) (* 625-626 *)
  | CFlush (stop : bool)                   (* 629, 632-635 *)
  | CDone.                                 (* returned, not joined yet *)
  (** initialize(stream), initialize(file) or the destructor *)
  Inductive call := CallStream (s : nat) | CallFile (f : string) | CallDestroy.
  (** the owner: interrupt 643-650 (test, set, join), LoggerBase::initialize, start 656-660 *)
  Inductive opc := OIdle | OCheck (c : call) | OSet (c : call) | OJoin (c : call) | OInit (c : call) | OFlag | OThread | ODead.
  (** what can be observed *)
  Inductive event :=
  | EInsert (m : M)          (* a message enters the queue *)
  | EWrite (d : dest) (m : M)
  | ERequest                 (* interrupted_ is set *)
  | EJoined                  (* the thread has been joined: destructor / reinitialisation goes on *)
  | EBound (d : dest)        (* initialisation with an output has succeeded *)
  | EFailed                  (* initialisation has thrown *)
  | EDestroyed.
  Record lst := mkLst { base : lbase; queue : list M; mutex : option thread; interrupted : bool;
                        cons : cpc; own : opc; prod : nat -> ppc; hist : list event (** newest first *) }.
  (** one step of a thread; [m], [c], [fs]: the message / call to begin with if the thread is idle, the answer of the file system *)
  Inductive action := AProducer (p : nat) (m : M) | AConsumer | AOwner (c : call) (fs : bool).

  Definition set_prod (s : lst) (p : nat) (x : ppc) : nat -> ppc := fun q => if (q =? p)%nat then x else prod s q.
  (** pushMessage, 576-581; [None]: the thread cannot move *)
  Definition step_producer (p : nat) (m : M) (s : lst) : option lst :=
    match prod s p with
    | POut => match own s with
              | ODead => None
              | _ => Some (mkLst (base s) (queue s) (mutex s) (interrupted s) (cons s) (own s) (set_prod s p (PLock m)) (hist s))
              end
    | PLock m => match mutex s with
                 | Some _ => None
                 | None => Some (mkLst (base s) (queue s) (Some (Producer p)) (interrupted s) (cons s) (own s) (set_prod s p (PPush m)) (hist s))
                 end
    | PPush m => Some (mkLst (base s) (queue s ++ [m]) (mutex s) (interrupted s) (cons s) (own s) (set_prod s p PUnlock) (EInsert m :: hist s))
    | PUnlock => Some (mkLst (base s) (queue s) None (interrupted s) (cons s) (own s) (set_prod s p POut) (hist s))
    end.
  Definition set_cons (s : lst) (c : cpc) : lst := mkLst (base s) (queue s) (mutex s) (interrupted s) c (own s) (prod s) (hist s).
  (** processQueue, 587-637; front() of an empty queue and a null stream are undefined *)
  Definition step_consumer (s : lst) : option (outcome lst) :=
    match cons s with
    | CNone | CDone => None
    | CTop stop => Some (Ok (set_cons s (CLock (if interrupted s then true else stop))))
    | CLock stop => match mutex s with
                    | Some _ => None
                    | None => Some (Ok (mkLst (base s) (queue s) (Some Consumer) (interrupted s) (CSize stop) (own s) (prod s) (hist s)))
                    end
    | CSize stop => Some (Ok (set_cons s (CUnlock stop (length (queue s)))))
    | CUnlock stop n => Some (Ok (mkLst (base s) (queue s) None (interrupted s) (CTest stop n) (own s) (prod s) (hist s)))
    | CTest stop n => Some (Ok (set_cons s (match n with
                                            | O => if stop then CDone else CTop stop
                                            | S _ => CPopLock stop n
                                            end)))
    | CPopLock stop n => match n with
                         | O => Some (Ok (set_cons s (CFlush stop)))
                         | S _ => match mutex s with
                                  | Some _ => None
                                  | None => Some (Ok (mkLst (base s) (queue s) (Some Consumer) (interrupted s) (CPop stop n) (own s) (prod s) (hist s)))
                                  end
                         end
    | CPop stop n => match queue s with
                     | [] => Some UB
                     | m :: rest => Some (Ok (mkLst (base s) rest (mutex s) (interrupted s) (CPopUnlock stop (n - 1) m) (own s) (prod s) (hist s)))
                     end
    | CPopUnlock stop n m => Some (Ok (mkLst (base s) (queue s) None (interrupted s) (CWrite stop n m) (own s) (prod s) (hist s)))
    | CWrite stop n m => match base_dest (base s) with
                         | None => Some UB
                         | Some d => Some (Ok (mkLst (base s) (queue s) (mutex s) (interrupted s) (CPopLock stop n) (own s) (prod s) (EWrite d m :: hist s)))
                         end
    | CFlush stop => Some (Ok (set_cons s (if stop then CDone else CTop stop)))
    end.
  Definition set_own (s : lst) (o : opc) : lst := mkLst (base s) (queue s) (mutex s) (interrupted s) (cons s) o (prod s) (hist s).
  (** the owner: 643-650, 656-660, 724-752 and the destructors 710-713, 390-393 *)
  Definition step_owner (c : call) (fs : bool) (s : lst) : option lst :=
    match own s with
    | OIdle => Some (set_own s (OCheck c))
    | OCheck c => Some (set_own s (if interrupted s then OInit c else OSet c))
    | OSet c => Some (mkLst (base s) (queue s) (mutex s) true (cons s) (OJoin c) (prod s) (ERequest :: hist s))
    | OJoin c => match cons s with
                 | CDone => Some (mkLst (base s) (queue s) (mutex s) (interrupted s) CNone (OInit c) (prod s) (EJoined :: hist s))
                 | _ => None
                 end
    | OInit (CallStream n) =>
        Some (mkLst (base_init_stream n (base s)) (queue s) (mutex s) (interrupted s) (cons s) OFlag (prod s) (EBound (ToStream n) :: hist s))
    | OInit (CallFile f) =>
        let r := base_init_file f fs (base s) in
        Some (mkLst (fst r) (queue s) (mutex s) (interrupted s) (cons s) (if snd r then OFlag else OIdle) (prod s)
                    ((if snd r then EBound (ToFile f) else EFailed) :: hist s))
    | OInit CallDestroy =>
        Some (mkLst (base_clean (base s)) (queue s) (mutex s) (interrupted s) (cons s) ODead (prod s) (EDestroyed :: hist s))
    | OFlag => Some (mkLst (base s) (queue s) (mutex s) false (cons s) OThread (prod s) (hist s))
    | OThread => Some (mkLst (base s) (queue s) (mutex s) (interrupted s) (CTop false) OIdle (prod s) (hist s))
    | ODead => None
    end.
  (** [None]: the action is not possible in the state *)
  Definition step (a : action) (s : lst) : option (outcome lst) :=
    match a with
    | AProducer p m => option_map Ok (step_producer p m s)
    | AConsumer => step_consumer s
    | AOwner c fs => option_map Ok (step_owner c fs s)
    end.
  (** a schedule: actions which are not possible are skipped (the thread waits) *)
  Fixpoint run (sched : list action) (s : lst) : outcome lst :=
    match sched with
    | [] => Ok s
    | a :: rest => match step a s with
                   | None => run rest s
                   | Some o => bind o (run rest)
                   end
    end.
  (** 670-674: a logger without output; the constructors with a stream or a file (685-705) continue with
      LoggerBase::initialize and start *)
  Definition initial (o : opc) : lst := mkLst base_default [] None true CNone o (fun _ => POut) [].
  Definition constructed (s : lst) : Prop := s = initial OIdle \/ (exists n, s = initial (OInit (CallStream n))) \/ (exists f, s = initial (OInit (CallFile f))).
End Threaded.
Arguments EInsert {M}. Arguments EWrite {M}. Arguments ERequest {M}. Arguments EJoined {M}. Arguments EBound {M}. Arguments EFailed {M}. Arguments EDestroyed {M}.
Arguments run {M}. Arguments step {M}. Arguments hist {M}. Arguments queue {M}. Arguments cons {M}. Arguments own {M}. Arguments prod {M}. Arguments mutex {M}.
Arguments base {M}. Arguments interrupted {M}. Arguments constructed {M}. Arguments initial {M}. Arguments AProducer {M}. Arguments AConsumer {M}. Arguments AOwner {M}.
Arguments POut {M}. Arguments PLock {M}. Arguments PPush {M}. Arguments PUnlock {M}.
Arguments CNone {M}. Arguments CTop {M}. Arguments CLock {M}. Arguments CSize {M}. Arguments CUnlock {M}. Arguments CTest {M}. Arguments CPopLock {M}. Arguments CPop {M}.
Arguments CPopUnlock {M}. Arguments CWrite {M}. Arguments CFlush {M}. Arguments CDone {M}.
Arguments mkLst {M}. Arguments set_prod {M}. Arguments set_cons {M}. Arguments set_own {M}. Arguments step_producer {M}. Arguments step_consumer {M}. Arguments step_owner {M}.
