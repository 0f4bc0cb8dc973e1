(** * The life of an object of the class humoto::qpoases::Solver
    (/repo/bridges/qpOASES/interface/qpoases/solver.h, /repo/core/include/humoto/solver.h).

    The solver keeps a pointer to an object of the library and a pointer to the numbers of the guess of the solution: both
    are addresses here, and the objects which exist are a part of the world. The library is a function which is given with
    each call; it reads as many numbers as its object has variables and constraints. Exceptions are caught by the user, and
    the solver is used again: the contents of a QP and of a guess, whose construction is interrupted by an exception, are
    arbitrary ([cl_broken], [cl_broken_guess]). *)
From Coq Require Import List Arith ZArith Bool Reals.
From Verif Require Import Base ActiveSet ConstraintType HierarchyLevel Matrix Constraints QP Problem QpoasesBridge Backends Solver.
Import ListNotations.
Open Scope R_scope.

(** humoto/solver.h:19-51, qpoases/solver.h:20-112; the options of the library are a list of numbers *)
Record qparams := mkQParams {
  pr_crash : bool;
  pr_two_levels : bool;
  pr_max_iterations : Z;
  pr_max_cpu_time : R;
  pr_options : list R
}.

(** qpoases/solver.h:237-262, 291: everything which is given to QProblem::setOptions() and QProblem::init() *)
Record libcall := mkLibcall {
  lc_object : nat;
  lc_problem : qpoases_args;
  lc_options : list R;
  lc_iterations : Z;
  lc_time : option R;
  lc_guess : option vec;
  lc_active : option (list qstatus * list qstatus)
}.

(** what the library gives back: the returned code, the number of iterations, the primal solution if there is one, and
    the working sets (qpoases/solver.h:237-291) *)
Record answer := mkAnswer {
  an_code : backend_code;
  an_iterations : Z;
  an_primal : option (nat -> R);
  an_wsb : nat -> R;
  an_wsc : nat -> R
}.

(** humoto/solution.h:30-54, 193-196, qpoases/solution.h:21-28: the number of variables, x_, return_status_, and the return
    value with the number of iterations if the class of the object is humoto::qpoases::Solution *)
Record qsolution := mkQSol {
  so_nv : nat;
  so_x : vec;
  so_status : status;
  so_details : option (backend_code * Z)
}.

(** qpoases/solver.h:135-161: parameters_, the members in [qpo], solution_guess_ and qp_; null pointers are [None] *)
Record qsolver := mkQSolver {
  sv_par : qparams;
  sv_qp : qpo;
  sv_guess : option nat;
  sv_object : option nat
}.

(** the objects of the library which exist, the next address, and the calls of the library, the last one first (new and delete in qpoases/solver.h:175, 474-487) *)
Record world := mkWorld { wd_live : list nat; wd_next : nat; wd_calls : list libcall }.

(** the arguments of one of the functions solve(), and the environment of the call: the memory of the vectors of
    solutions at their addresses, the constraints of tasks, the answer of the library (humoto/solver.h:85-452) *)
Record call := mkCall {
  cl_params : option qparams;
  cl_problem : problem;
  cl_solution : qsolution;
  cl_guess : option nat;
  cl_active : option asets;
  cl_report : bool;
  cl_memory : nat -> option vec;
  cl_cs : nat -> constr;
  cl_library : libcall -> answer;
  cl_broken : objective * qpc_ILU_ALU;
  cl_broken_guess : list qstatus * list qstatus
}.

(** a function returns, throws an exception, or has no defined behaviour; the state is what is left (no code of its own; HUMOTO_THROW_MSG is humoto_helpers.h:70-87) *)
Inductive result (A : Type) := Returned (a : A) | Thrown (a : A) | Undefined.
Arguments Returned {A} a. Arguments Thrown {A} a. Arguments Undefined {A}.
(** one statement after another, e.g. qpoases/solver.h:182-291 *)
Definition andthen {A : Type} (r : result A) (f : A -> result A) : result A :=
  match r with Returned a => f a | Thrown a => Thrown a | Undefined => Undefined end.

(** whether an object of the library exists, created at qpoases/solver.h:175 *)
Definition is_live (a : nat) (w : world) : bool := existsb (Nat.eqb a) (wd_live w).

(** operator delete; a second deletion is not defined (qpoases/solver.h:474-487) *)
Definition delete (a : nat) (w : world) : option world :=
  if is_live a w then Some (mkWorld (filter (fun b => negb (Nat.eqb a b)) (wd_live w)) (wd_next w) (wd_calls w)) else None.

(** qpoases/solver.h:474-487 reset() *)
Definition sv_reset (s : qsolver) (w : world) : option (qsolver * world) :=
  let s' := mkQSolver (sv_par s) (mkQpo (qo_obj (sv_qp s)) (qo_con (sv_qp s)) 0 (qo_nv (sv_qp s)) None) None None in
  match sv_object s with
  | None => Some (s', w)
  | Some a => match delete a w with Some w' => Some (s', w') | None => None end
  end.

(** qpoases/solver.h:494-498, 516-521 with 142-146 of humoto/solver.h: the constructors *)
Definition sv_new (p : qparams) : qsolver := mkQSolver p qpo_new None None.
(** qpoases/solver.h:504-507: the destructor *)
Definition sv_destroy (s : qsolver) (w : world) : option world :=
  match sv_reset s w with Some (_, w') => Some w' | None => None end.
(** the implicit copy constructor: members are copied (qpoases/solver.h:134-539 declares none) *)
Definition sv_copy (s : qsolver) : qsolver := s.
(** humoto/solver.h:142-146 *)
Definition sv_setParameters (p : qparams) (s : qsolver) (w : world) : option (qsolver * world) :=
  sv_reset (mkQSolver p (sv_qp s) (sv_guess s) (sv_object s)) w.

(** humoto/solver.h:469-487: checkInputs() does not throw *)
Definition sv_accepts (p : qparams) (levels : list level) : bool :=
  let n := length levels in
  pr_two_levels p && ((n <=? 2)%nat && (1 <=? n)%nat) &&
  match nth_error levels (n - 1) with
  | Some l => level_isEquality l && (0 <? level_getNumberOfConstraints l)%nat
  | None => false
  end.

(** the state of a call: the solver, the solution given by the user, the reported active set, and the world (humoto/solver.h:85-452) *)
Record cstate := mkCState { cs_solver : qsolver; cs_solution : qsolution; cs_report : option asets; cs_world : world }.
(** a new state of the solver, humoto/solver.h:85-452 *)
Definition with_solver (s : qsolver) (t : cstate) : cstate := mkCState s (cs_solution t) (cs_report t) (cs_world t).

(** qpoases/solver.h:166-178 initialize() *)
Definition sv_initialize (c : call) (t : cstate) : result cstate :=
  match sv_reset (cs_solver t) (cs_world t) with
  | None => Undefined
  | Some (s, w) =>
      match qpo_initialize (cl_cs c) (pb_levels (cl_problem c)) (so_nv (cs_solution t)) (sv_qp s) with
      | Ok q => let a := wd_next w in
          Returned (mkCState (mkQSolver (sv_par s) q None (Some a)) (cs_solution t) (cs_report t)
                      (mkWorld (a :: wd_live w) (S a) (wd_calls w)))
      | Throw =>
          Thrown (mkCState (mkQSolver (sv_par s) (mkQpo (fst (cl_broken c)) (snd (cl_broken c)) 0 (qo_nv (sv_qp s)) None) None None)
                    (cs_solution t) (cs_report t) w)
      | UB => Undefined
      end
  end.

(** qpoases/solver.h:468-471 setSolutionGuess() *)
Definition sv_setSolutionGuess (a : nat) (t : cstate) : result cstate :=
  let s := cs_solver t in Returned (with_solver (mkQSolver (sv_par s) (sv_qp s) (Some a) (sv_object s)) t).

(** qpoases/solver.h:404-463 setActiveSet() *)
Definition sv_setActiveSet (c : call) (a : asets) (t : cstate) : result cstate :=
  let s := cs_solver t in
  match qpo_setActiveSet a (sv_qp s) with
  | Ok q => Returned (with_solver (mkQSolver (sv_par s) q (sv_guess s) (sv_object s)) t)
  | Throw => let q := sv_qp s in
      Thrown (with_solver (mkQSolver (sv_par s) (mkQpo (qo_obj q) (qo_con q) (qo_nc q) (qo_nv q) (Some (cl_broken_guess c))) (sv_guess s) (sv_object s)) t)
  | UB => Undefined
  end.

(** the buffers given to the library have all the numbers which it reads: [nv] variables, [nc] constraints (qpoases/solver.h:237-262) *)
Definition readable (q : qpo) : bool :=
  let nv := qo_nv q in
  let nc := qo_nc q in
  ((nv * nv <=? mrows (o_H (qo_obj q)) * mcols (o_H (qo_obj q))) && (nv <=? vlen (o_g (qo_obj q))) &&
   ((qo_nb q =? 0) || ((nv <=? vlen (q_lb (qo_con q))) && (nv <=? vlen (q_ub (qo_con q))))) &&
   ((nc =? 0) || ((nc * nv <=? mrows (alu_A (q_general (qo_con q))) * mcols (alu_A (q_general (qo_con q)))) &&
                  (nc <=? vlen (alu_lb (q_general (qo_con q)))) && (nc <=? vlen (alu_ub (q_general (qo_con q)))))) &&
   match qo_guess q with Some (gb, gc) => (nv <=? length gb) && (nc <=? length gc) | None => true end)%nat.

(** the numbers of the guess of the solution; [None]: the pointer is not null, and [nv] numbers cannot be read (qpoases/solver.h:166-178, 237-262) *)
Definition read_guess (memory : nat -> option vec) (nv : nat) (g : option nat) : option (option vec) :=
  match g with
  | None => Some None
  | Some a => match memory a with
              | Some v => if (nv <=? vlen v)%nat then Some (Some (mkVec nv (vget v))) else None
              | None => None
              end
  end.

(** qpoases/solver.h:182-291 solveHierarchy() *)
Definition sv_solveHierarchy (c : call) (t : cstate) : result cstate :=
  let s := cs_solver t in
  let q := sv_qp s in
  let w := cs_world t in
  match sv_object s with
  | None => Undefined
  | Some a =>
      if is_live a w && readable q then
        match read_guess (cl_memory c) (qo_nv q) (sv_guess s) with
        | None => Undefined
        | Some g =>
            let k := mkLibcall a (qpoases_call q) (pr_options (sv_par s)) (pr_max_iterations (sv_par s))
                       (if Req_EM_T (pr_max_cpu_time (sv_par s)) 0 then None else Some (pr_max_cpu_time (sv_par s)))
                       g (qo_guess q) in
            let an := cl_library c k in
            let so := cs_solution t in
            let s' := mkQSolver (sv_par s) (mkQpo (qo_obj q) (qo_con q) (qo_nc q) (qo_nv q) None) None (Some a) in
            let finish x := Returned (mkCState s'
                 (mkQSol (so_nv so) x (bridge_status QPOASES (an_code an))
                    (match so_details so with Some _ => Some (an_code an, an_iterations an) | None => None end))
                 (cs_report t) (mkWorld (wd_live w) (wd_next w) (k :: wd_calls w))) in
            match an_primal an with
            | None => finish (so_x so)
            | Some x => if (qo_nv q <=? vlen (so_x so))%nat
                        then finish (mkVec (vlen (so_x so)) (fun i => if (i <? qo_nv q)%nat then x i else vget (so_x so) i))
                        else Undefined
            end
        end
      else Undefined
  end.

(** humoto/solver.h:85-93 checkResults() *)
Definition sv_checkResults (t : cstate) : result cstate :=
  if pr_crash (sv_par (cs_solver t)) && negb (is_ok (so_status (cs_solution t))) then Thrown t else Returned t.

(** qpoases/solver.h:296-394 getActiveSet(); the working sets are those of the last call of the library *)
Definition sv_getActiveSet (c : call) (t : cstate) : result cstate :=
  match wd_calls (cs_world t) with
  | [] => Undefined
  | k :: _ =>
      let an := cl_library c k in
      match qpo_getActiveSet (an_wsb an) (an_wsc an) (sv_qp (cs_solver t)) (cl_problem c) with
      | Ok a => Returned (mkCState (cs_solver t) (cs_solution t) (Some a) (cs_world t))
      | Throw => Thrown t
      | UB => Undefined
      end
  end.

(** humoto/solver.h:155-162, 173-183, 230-239, 297-308, 319-328, 339-348, 393-406, 418-429, 441-452: the functions solve().
    They differ in what is given: parameters, a guess of the solution, a guess of the active set, a place for the active
    set. (Parameters are given only alone; the function below does not need this.) *)
Definition sv_solve (c : call) (s : qsolver) (w : world) : result cstate :=
  let s1 := match cl_params c with Some p => mkQSolver p (sv_qp s) (sv_guess s) (sv_object s) | None => s end in
  let t := mkCState s1 (cl_solution c) None w in
  if sv_accepts (sv_par s1) (pb_levels (cl_problem c)) then
    andthen (sv_initialize c t) (fun t =>
    andthen (match cl_guess c with Some a => sv_setSolutionGuess a t | None => Returned t end) (fun t =>
    andthen (match cl_active c with Some a => sv_setActiveSet c a t | None => Returned t end) (fun t =>
    andthen (sv_solveHierarchy c t) (fun t =>
    andthen (sv_checkResults t) (fun t =>
      if cl_report c then sv_getActiveSet c t else Returned t)))))
  else Thrown t.

(** what a user does with a solver between its construction and its destruction (humoto/solver.h:85-487) *)
Inductive event := Solve (c : call) | SetParameters (p : qparams).
(** exceptions are caught; [None]: not defined (humoto/solver.h:85-487) *)
Definition sv_do (e : event) (sw : qsolver * world) : option (qsolver * world) :=
  match e with
  | SetParameters p => sv_setParameters p (fst sw) (snd sw)
  | Solve c => match sv_solve c (fst sw) (snd sw) with
               | Returned t | Thrown t => Some (cs_solver t, cs_world t)
               | Undefined => None
               end
  end.
(** a sequence of calls, humoto/solver.h:85-487 *)
Fixpoint sv_run (es : list event) (sw : qsolver * world) : option (qsolver * world) :=
  match es with
  | [] => Some sw
  | e :: rest => match sv_do e sw with Some sw' => sv_run rest sw' | None => None end
  end.
