(** * The bridge to qpOASES (/repo/bridges/qpOASES/interface/qpoases/solver.h).

    qpOASES itself is not in the repository. What the bridge gets from it (the working sets) is an argument of the
    functions; what the bridge gives to it (the guess of the working sets) is a part of the state. A guess is modelled by
    the statuses of its entries. Parameters, return values, timing and the guess of the solution are not modelled. If a
    call throws, the state of the solver is not used afterwards. *)
From Coq Require Import List Arith Bool Reals.
From Verif Require Import Base ActiveSet ConstraintType HierarchyLevel Matrix Constraints QP Problem.
Import ListNotations.
Open Scope R_scope.

(** statuses of entries of a working set (qpOASES::SubjectToStatus) (solver.h:353-393, 411-462) *)
Inductive qstatus := ST_LOWER | ST_INACTIVE | ST_UPPER.

(** solver.h:130-163: qp_problem_ (objective and constraints), number_of_constraints_, the number of variables of the
    object qp_, and the guess of the working sets of bounds and constraints if active_set_guess_provided_ *)
Record qpo := mkQpo {
  qo_obj : objective;
  qo_con : qpc_ILU_ALU;
  qo_nc : nat;
  qo_nv : nat;
  qo_guess : option (list qstatus * list qstatus)
}.

(** solver.h:492-505, qp_problem.h:38-50, constraints_base.h:128-132: a new solver contains an empty QP *)
Definition empty_objective : objective := mkObjective (mzero 0 0) (vconst 0 0) HESSIAN_UNDEFINED QP_UNDEFINED.
(** qp_problem.h:38-50 *)
Definition empty_ILU_ALU : qpc_ILU_ALU :=
  mkQILU (mkALU (mzero 0 0) (vconst 0 0) (vconst 0 0)) (mkILU 0 [] (vconst 0 0) (vconst 0 0)) (vconst 0 0) (vconst 0 0).
(** solver.h:492-505 *)
Definition qpo_new : qpo := mkQpo empty_objective empty_ILU_ALU 0 0 None.

(** solver.h:166-178 initialize() with 474-487 reset(); [nv] is the number of variables of the solution structure *)
Definition qpo_initialize (cs : nat -> constr) (levels : list level) (nv : nat) (s : qpo) : outcome qpo :=
  bind (getQPProblem (fun l => initializeConstraints_ILU_ALU cs l nv) cs levels true (qo_obj s, qo_con s)) (fun r =>
    Ok (mkQpo (fst r) (snd r) (mrows (alu_A (q_general (snd r)))) nv None)).

(** getSimpleBounds().getNumberOfConstraints(), getNumberOfVariables() (solver.h:327-350) *)
Definition qo_nb (s : qpo) : nat := length (ilu_I (q_bounds (qo_con s))).
(** getSimpleBounds().getNumberOfVariables(), solver.h:327-350 *)
Definition qo_bv (s : qpo) : nat := ilu_nvars (q_bounds (qo_con s)).

(** active_set[0][i] = type *)
Definition put_first (a : asets) (i : nat) (t : act) : outcome asets :=
  bind (read_at a 0) (fun v => bind (as_put v i t) (fun v' => write_at a 0 v')).

(** solver.h:327-350: one general constraint *)
Definition general_status (w : R) : outcome act :=
  if Req_EM_T w (-1) then Ok LOWER_BOUND
  else if Req_EM_T w 0 then Ok INACTIVE
  else if Req_EM_T w 1 then Ok UPPER_BOUND
  else Throw.

(** solver.h:353-393: one simple bound; the reads are checked by Eigen *)
Definition bound_status (s : qpo) (wsb : nat -> R) (i : nat) : outcome act :=
  let b := q_bounds (qo_con s) in
  let lb := q_lb (qo_con s) in
  let ub := q_ub (qo_con s) in
  let v := nth i (ilu_I b) 0%nat in
  assert_then (v <? qo_bv s)%nat
   (if Req_EM_T (wsb v) (-1) then
      assert_then ((i <? vlen (ilu_lb b)) && (v <? vlen lb))%nat
        (if Rlt_dec (vget (ilu_lb b) i) (vget lb v) then Ok INACTIVE else Ok LOWER_BOUND)
    else if Req_EM_T (wsb v) 0 then Ok INACTIVE
    else if Req_EM_T (wsb v) 1 then
      assert_then ((i <? vlen (ilu_ub b)) && (v <? vlen ub))%nat
        (if Rlt_dec (vget ub v) (vget (ilu_ub b) i) then Ok INACTIVE else Ok UPPER_BOUND)
    else Throw).

(** solver.h:296-394 getActiveSet(); [wsb], [wsc] are the working sets of the library. The library writes one number for
    each of its variables to the vector of 301, which has the size of the stored simple bounds. *)
Definition qpo_getActiveSet (wsb wsc : nat -> R) (s : qpo) (p : problem) : outcome asets :=
  if (0 <? qo_nb s)%nat && (qo_bv s <? qo_nv s)%nat then UB
  else
    bind (pb_initializeActiveSet p) (fun a0 =>
    bind (ass_set a0 (if (qo_nc s + qo_nb s =? 0)%nat then 0 else 1) EQUALITY) (fun a1 =>
    bind (for_up (qo_nc s) 0 (fun i a => bind (general_status (wsc i)) (put_first a i)) a1) (fun a2 =>
      for_up (qo_nb s) 0 (fun i a => bind (bound_status s wsb i) (put_first a (qo_nc s + i))) a2))).

(** active_set[0][i] *)
Definition get_first (a : asets) (i : nat) : outcome act := bind (read_at a 0) (fun v => as_get v i).

(** solver.h:411-433: the status of a general constraint *)
Definition guess_constraint (t : act) : outcome qstatus :=
  match t with
  | LOWER_BOUND => Ok ST_LOWER
  | INACTIVE => Ok ST_INACTIVE
  | UPPER_BOUND => Ok ST_UPPER
  | EQUALITY => Ok ST_LOWER
  | UNDEFINED => Throw
  end.
(** solver.h:438-462: the status of a bound, if it has to be set *)
Definition guess_bound (t : act) : outcome (option qstatus) :=
  match t with
  | LOWER_BOUND => Ok (Some ST_LOWER)
  | INACTIVE => Ok None
  | UPPER_BOUND => Ok (Some ST_UPPER)
  | EQUALITY => Ok (Some ST_LOWER)
  | UNDEFINED => Throw
  end.

(** solver.h:404-463 setActiveSet(); setupConstraint() and setupBound() set one status, init() and setupAllFree() all *)
Definition qpo_setActiveSet (a : asets) (s : qpo) : outcome qpo :=
  bind (for_up (qo_nc s) 0 (fun i g => bind (get_first a i) (fun t => bind (guess_constraint t) (fun q => Ok (update g i q))))
          (repeat ST_INACTIVE (qo_nc s))) (fun gc =>
  bind (for_up (qo_nb s) 0 (fun i g => bind (get_first a (qo_nc s + i)) (fun t => bind (guess_bound t) (fun o =>
            Ok (match o with Some q => update g (nth i (ilu_I (q_bounds (qo_con s))) 0%nat) q | None => g end))))
          (repeat ST_INACTIVE (qo_bv s))) (fun gb =>
  Ok (mkQpo (qo_obj s) (qo_con s) (qo_nc s) (qo_nv s) (Some (gb, gc))))).
