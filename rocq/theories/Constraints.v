(** * Constraint objects, containers and copying between them
    (/repo/core/include/humoto/constraints.h, constraints_base.h, constraints_mixins.h).

    A constraint object is a body (A, A with offset, indices, indices with gains)
    and bounds; the 20 classes of constraints.h are the 4 x 5 combinations.
    An Eigen assertion (sizes, indices) is [Throw]. Simplification: offset_ of BodyASMixin
    (std::ptrdiff_t) is a natural number. *)
From Coq Require Import List Arith Reals Bool.
From Verif Require Import Base RSum Matrix ConstraintType HierarchyLevel.
Import ListNotations.
Open Scope R_scope.

(** constants.h: g_infinity (constants.h:24) *)
Definition g_infinity : R := 10 ^ 20.

(** constraints_mixins.h:441 BodyAMixin, 583-584 BodyASMixin, 746 BodyIMixin, 894 BodyGIMixin *)
Inductive body :=
| BodyA (A : mat)
| BodyAS (A : mat) (off : nat)
| BodyI (ix : list nat)
| BodyGI (ix : list nat) (G : vec).

(** constraints_mixins.h:36 BoundsB0Mixin, 115 BoundsBMixin, 207 BoundsLMixin, 285 BoundsUMixin,
    365 BoundsLUMixin *)
Inductive bounds :=
| BoundsB0
| BoundsB (b : vec)
| BoundsL (lb : vec)
| BoundsU (ub : vec)
| BoundsLU (lb ub : vec).

(** constraints_base.h:117-133: number_of_variables_ *)
Record constr := mkConstr { c_nvars : nat; c_body : body; c_bounds : bounds }.

(** constraints.h: getType() of the 20 classes (e.g. 48-52) *)
Definition getType (c : constr) : ctype :=
  match c_body c, c_bounds c with
  | BodyI _, BoundsLU _ _ => ILU | BodyI _, BoundsL _ => IL | BodyI _, BoundsU _ => IU
  | BodyI _, BoundsB _ => IB | BodyI _, BoundsB0 => IB0
  | BodyGI _ _, BoundsLU _ _ => GILU | BodyGI _ _, BoundsL _ => GIL | BodyGI _ _, BoundsU _ => GIU
  | BodyGI _ _, BoundsB _ => GIB | BodyGI _ _, BoundsB0 => GIB0
  | BodyA _, BoundsLU _ _ => ALU | BodyA _, BoundsL _ => AL | BodyA _, BoundsU _ => AU
  | BodyA _, BoundsB _ => AB | BodyA _, BoundsB0 => AB0
  | BodyAS _ _, BoundsLU _ _ => ASLU | BodyAS _ _, BoundsL _ => ASL | BodyAS _ _, BoundsU _ => ASU
  | BodyAS _ _, BoundsB _ => ASB | BodyAS _ _, BoundsB0 => ASB0
  end.

(** constraints_mixins.h:550-553, 720-723, 866-869 *)
Definition getNumberOfConstraints (c : constr) : nat :=
  match c_body c with
  | BodyA A => mrows A
  | BodyAS A _ => mrows A
  | BodyI ix => length ix
  | BodyGI ix _ => length ix
  end.

(** constraints_mixins.h:564-568, 728-732, 873-877, 1010-1014; [x] is the solution vector *)
Definition getProduct (c : constr) (i : nat) (x : vec) : R :=
  match c_body c with
  | BodyA A => Rsum (mcols A) (fun k => mget A i k * vget x k)
  | BodyAS A off => Rsum (mcols A) (fun k => mget A i k * vget x (off + k))
  | BodyI ix => vget x (nth i ix 0%nat)
  | BodyGI ix G => vget G i * vget x (nth i ix 0%nat)
  end.

(** The assertions on the sizes of the bounds in checkConsistency() (constraints.h:56-64, 102-109, 146-153, 192-199, 253-257) *)
Definition bounds_size_ok (n : nat) (b : bounds) : bool :=
  match b with
  | BoundsB0 => true
  | BoundsB b => (n =? vlen b)%nat
  | BoundsL lb => (n =? vlen lb)%nat
  | BoundsU ub => (n =? vlen ub)%nat
  | BoundsLU lb ub => ((n =? vlen lb) && (n =? vlen ub))%nat
  end.

(** checkConsistency(): constraints.h:56-64, 102-109, 146-153, 192-199, 253-257 (A);
    318-327, 366-374, 412-420, 460-468, 529-534 (AS); 595-603, 643-650, 689-696, 745-752, 822-826 (GI);
    870-875, 913-917, 956-960, 999-1003, 1055 (I) *)
Definition checkConsistency (c : constr) : bool :=
  bounds_size_ok (getNumberOfConstraints c) (c_bounds c) &&
  match c_body c with
  | BodyA A => ((0 <? mcols A) && (mcols A =? c_nvars c))%nat
  | BodyAS A off => ((0 <? mcols A) && (mcols A + off <=? c_nvars c))%nat
  | BodyI _ => true
  | BodyGI ix G => (length ix =? vlen G)%nat
  end.

(** constraints_mixins.h:814-827, 976-989: a row of zeros with one entry per constraint *)
Definition copy_selection (nvars : nat) (ix : list nat) (value : nat -> R) (A : mat) (l : Location)
  : outcome mat :=
  assert_then (mcols A =? nvars)%nat
    (assert_then (length ix =? len l)%nat
      (bind (mset_block_o A (offset l) 0 (mzero (len l) nvars)) (fun A0 =>
        for_up (len l) 0 (fun i A => mset_o A (offset l + i) (nth i ix 0%nat) (value i)) A0))).

(** constraints_mixins.h:689-701: A.middleRows(offset, length) << zeros, A_, zeros *)
Definition copy_sub (nvars : nat) (Ac : mat) (off : nat) (A : mat) (l : Location) : outcome mat :=
  assert_then ((nvars =? mcols A) && (off + mcols Ac <=? mcols A))%nat
    (assert_then (mrows Ac =? len l)%nat
      (mset_block_o A (offset l) 0
         (mhcat (mhcat (mzero (len l) off) Ac) (mzero (len l) (nvars - off - mcols Ac))))).

(** constraints_mixins.h:530-537: A.block(offset, 0, length, A_.cols()) = A_ *)
Definition copy_full (Ac : mat) (A : mat) (l : Location) : outcome mat :=
  assert_then (mcols Ac =? mcols A)%nat
    (assert_then (mrows Ac =? len l)%nat (mset_block_o A (offset l) 0 Ac)).

(** copyBodyTo: 530-537 (A), 689-701 (AS), 814-827 (I), 976-989 (GI) *)
Definition copyBodyTo (c : constr) (A : mat) (l : Location) : outcome mat :=
  match c_body c with
  | BodyA Ac => copy_full Ac A l
  | BodyAS Ac off => copy_sub (c_nvars c) Ac off A l
  | BodyI ix => copy_selection (c_nvars c) ix (fun _ => 1) A l
  | BodyGI ix G => copy_selection (c_nvars c) ix (vget G) A l
  end.

(** copyNegativeBodyTo: 540-547 (A), 705-717 (AS), 831-844 (I), 993-1006 (GI) *)
Definition copyNegativeBodyTo (c : constr) (A : mat) (l : Location) : outcome mat :=
  match c_body c with
  | BodyA Ac => copy_full (mopp Ac) A l
  | BodyAS Ac off => copy_sub (c_nvars c) (mopp Ac) off A l
  | BodyI ix => copy_selection (c_nvars c) ix (fun _ => -1) A l
  | BodyGI ix G => copy_selection (c_nvars c) ix (fun i => - vget G i) A l
  end.

(** copyBoundsTo: 98-104, 190-196, 267-273, 347-353, 401-409 *)
Definition copyBoundsTo (c : constr) (lb ub : vec) (l : Location) : outcome (vec * vec) :=
  let '(slb, sub) :=
    match c_bounds c with
    | BoundsB0 => (vconst (len l) 0, vconst (len l) 0)
    | BoundsB b => (b, b)
    | BoundsL lb => (lb, vconst (len l) g_infinity)
    | BoundsU ub => (vconst (len l) (- g_infinity), ub)
    | BoundsLU lb ub => (lb, ub)
    end in
  bind (vset_segment lb l slb) (fun lb' => bind (vset_segment ub l sub) (fun ub' => Ok (lb', ub'))).

(** copyEqualityBoundsTo: 89-93, 163-167; inequality classes do not have it *)
Definition copyEqualityBoundsTo (c : constr) (b : vec) (l : Location) : outcome vec :=
  match c_bounds c with
  | BoundsB0 => vset_segment b l (vconst (len l) 0)
  | BoundsB cb => vset_segment b l cb
  | _ => Throw
  end.

(** ** Containers (constraints_base.h:282-314) *)
Record contALU := mkALU { alu_A : mat; alu_lb : vec; alu_ub : vec }.
(** a container of constraints, constraints_base.h:282-314 *)
Record contAL := mkAL { al_A : mat; al_lb : vec }.
(** a container of constraints, constraints_base.h:282-314 *)
Record contAB := mkAB { ab_A : mat; ab_b : vec }.
(** a container of constraints, constraints_base.h:282-314 *)
Record contILU := mkILU { ilu_nvars : nat; ilu_I : list nat; ilu_lb : vec; ilu_ub : vec }.

(** Eigen resize(r, c): the entries are unspecified afterwards; here they are those of
    the old object, which the theorems quantify over (constraints_mixins.h:462-472) *)
Definition mresize (m : mat) (r c : nat) : mat := mkMat r c (mget m).
(** resize(n) of the bounds, constraints_mixins.h:134-145, 226-236, 304-314, 380-384 *)
Definition vresize (v : vec) (n : nat) : vec := mkVec n (vget v).
(** resize(n) of the indices, constraints_mixins.h:771-775 *)
Definition iresize (ix : list nat) (n : nat) : list nat := map (fun k => nth k ix 0%nat) (seq 0 n).

(** constraints_base.h:175-183 reset(number_of_constraints, number_of_variables, false) with
    constraints_mixins.h:462-472 (A), 771-775 (I), 134-145, 226-236, 304-314, 380-384 (bounds) *)
Definition reset_ALU (k : contALU) (n nv : nat) : contALU :=
  mkALU (mresize (alu_A k) n nv) (vresize (alu_lb k) n) (vresize (alu_ub k) n).
(** constraints_base.h:175-183 with constraints_mixins.h:462-472, 771-775, 134-145, 226-236, 304-314 *)
Definition reset_AL (k : contAL) (n nv : nat) : contAL := mkAL (mresize (al_A k) n nv) (vresize (al_lb k) n).
(** constraints_base.h:175-183 with constraints_mixins.h:462-472, 771-775, 134-145, 226-236, 304-314 *)
Definition reset_AB (k : contAB) (n nv : nat) : contAB := mkAB (mresize (ab_A k) n nv) (vresize (ab_b k) n).
(** constraints_base.h:175-183 with constraints_mixins.h:462-472, 771-775, 134-145, 226-236, 304-314 *)
Definition reset_ILU (k : contILU) (n nv : nat) : contILU :=
  mkILU nv (iresize (ilu_I k) n) (vresize (ilu_lb k) n) (vresize (ilu_ub k) n).

(** constraints_base.h:262-274 getCopyLocation; the second assertion compares the number of
    variables of the container with itself (all callers pass it) *)
Definition getCopyLocation (n_container n off : nat) : outcome Location :=
  let l := mkLoc off n in assert_then (checkLength l n_container) (Ok l).

(** constraints_base.h:615-626 CopyAnyToALUMixin (all classes) *)
Definition copyTo_ALU (c : constr) (k : contALU) (off : nat) : outcome (contALU * nat) :=
  bind (getCopyLocation (mrows (alu_A k)) (getNumberOfConstraints c) off) (fun l =>
  bind (copyBoundsTo c (alu_lb k) (alu_ub k) l) (fun bs =>
  bind (copyBodyTo c (alu_A k) l) (fun A =>
    Ok (mkALU A (fst bs) (snd bs), offset l + len l)%nat))).

(** constraints_base.h:648-659 CopyLowerInequalityToALMixin *)
Definition copyLowerTo_AL (c : constr) (lb : vec) (k : contAL) (off : nat) : outcome (contAL * nat) :=
  bind (getCopyLocation (mrows (al_A k)) (getNumberOfConstraints c) off) (fun l =>
  bind (vset_segment (al_lb k) l lb) (fun lb' =>
  bind (copyBodyTo c (al_A k) l) (fun A => Ok (mkAL A lb', offset l + len l)%nat))).

(** constraints_base.h:680-691 CopyUpperInequalityToALMixin *)
Definition copyUpperTo_AL (c : constr) (ub : vec) (k : contAL) (off : nat) : outcome (contAL * nat) :=
  bind (getCopyLocation (mrows (al_A k)) (getNumberOfConstraints c) off) (fun l =>
  bind (vset_segment (al_lb k) l (vopp ub)) (fun lb' =>
  bind (copyNegativeBodyTo c (al_A k) l) (fun A => Ok (mkAL A lb', offset l + len l)%nat))).

(** copyTo(ContainerAL): the mixin each class of constraints.h derives from; 713-722
    CopyTwoSidedInequalityToALMixin copies the lower and then the upper part; equalities inherit
    the default which throws (472-476) *)
Definition copyTo_AL (c : constr) (k : contAL) (off : nat) : outcome (contAL * nat) :=
  match c_bounds c with
  | BoundsL lb => copyLowerTo_AL c lb k off
  | BoundsU ub => copyUpperTo_AL c ub k off
  | BoundsLU lb ub => bind (copyLowerTo_AL c lb k off) (fun r => copyUpperTo_AL c ub (fst r) (snd r))
  | _ => Throw
  end.

(** constraints_base.h:777-788 CopyEqualityToABMixin; inequalities inherit the default which
    throws (487-491) *)
Definition copyTo_AB (c : constr) (k : contAB) (off : nat) : outcome (contAB * nat) :=
  match c_bounds c with
  | BoundsB0 | BoundsB _ =>
      bind (getCopyLocation (mrows (ab_A k)) (getNumberOfConstraints c) off) (fun l =>
      bind (copyEqualityBoundsTo c (ab_b k) l) (fun b =>
      bind (copyBodyTo c (ab_A k) l) (fun A => Ok (mkAB A b, offset l + len l)%nat)))
  | _ => Throw
  end.

(** getIndices().segment(offset, length) = I (constraints_mixins.h:814-827) *)
Definition iset_segment (v : list nat) (l : Location) (src : list nat) : outcome (list nat) :=
  assert_then ((offset l + len l <=? length v) && (len l =? length src))%nat (copy_into v (offset l) src).

(** constraints_base.h:743-756 CopySimpleToILUMixin: only the I classes derive from it, all other
    classes (the GI classes included) inherit the default which throws (457-461) *)
Definition copyTo_ILU (c : constr) (k : contILU) (off : nat) : outcome (contILU * nat) :=
  match c_body c with
  | BodyI ix =>
      bind (getCopyLocation (length (ilu_I k)) (getNumberOfConstraints c) off) (fun l =>
      bind (copyBoundsTo c (ilu_lb k) (ilu_ub k) l) (fun bs =>
      bind (iset_segment (ilu_I k) l ix) (fun I' =>
        Ok (mkILU (ilu_nvars k) I' (fst bs) (snd bs), offset l + len l)%nat)))
  | _ => Throw
  end.

(** ** Per-variable bounds (constraints_base.h:324-364) *)

(** one iteration, 339-361; the indices are checked by Eigen *)
Definition tighten (k : contILU) (i : nat) (s : vec * vec) : outcome (vec * vec) :=
  let '(lb, ub) := s in
  let v := nth i (ilu_I k) 0%nat in
  assert_then ((v <? vlen lb) && (v <? vlen ub))%nat
   (bind (if Rlt_dec (vget lb v) (vget (ilu_lb k) i) then vset_o lb v (vget (ilu_lb k) i) else Ok lb) (fun lb' =>
    bind (if Rlt_dec (vget (ilu_ub k) i) (vget ub v) then vset_o ub v (vget (ilu_ub k) i) else Ok ub) (fun ub' =>
    if Rlt_dec (vget ub' v) (vget lb' v) then Throw else Ok (lb', ub')))).

(** constraints_base.h:324-364 *)
Definition initializeSolutionBounds (k : contILU) : outcome (vec * vec) :=
  let n := length (ilu_I k) in
  if (n =? 0)%nat then Ok (vconst 0 0, vconst 0 0)
  else for_up n 0 (tighten k) (vconst (ilu_nvars k) (- g_infinity), vconst (ilu_nvars k) g_infinity).

(** ** Hierarchy level: assembling the containers (hierarchy_level.h).
    [cs] maps the task to its constraint object. *)

(** the loop [for each task satisfying p: offset = task.copyTo(container, offset)] (hierarchy_level.h:346-470) *)
Fixpoint copy_loop {K : Type} (copy : constr -> K -> nat -> outcome (K * nat)) (p : ctype -> bool)
    (cs : nat -> constr) (ts : list tinfo) (s : K * nat) : outcome (K * nat) :=
  match ts with
  | [] => Ok s
  | i :: rest =>
      if p (tk_type (ti_task i))
      then bind (copy (cs (tk_id (ti_task i))) (fst s) (snd s)) (copy_loop copy p cs rest)
      else copy_loop copy p cs rest s
  end.

(** hierarchy_level.h:346-364 *)
Definition getEqualityConstraints (cs : nat -> constr) (l : level) (k : contAB) (nv : nat) : outcome contAB :=
  bind (copy_loop copyTo_AB ct_isEquality cs (lv_tasks l) (reset_AB k (n_equality l) nv, 0%nat))
    (fun r => Ok (fst r)).

(** hierarchy_level.h:372-390 *)
Definition getInequalityConstraints (cs : nat -> constr) (l : level) (k : contAL) (nv : nat) : outcome contAL :=
  bind (copy_loop copyTo_AL (fun t => negb (ct_isEquality t)) cs (lv_tasks l)
          (reset_AL k (level_getNumberOfInequalityConstraintsOneSided l) nv, 0%nat))
    (fun r => Ok (fst r)).

(** hierarchy_level.h:398-415 *)
Definition getAllConstraints (cs : nat -> constr) (l : level) (k : contALU) (nv : nat) : outcome contALU :=
  let k0 := reset_ALU k (level_getNumberOfConstraints l) nv in
  if (0 <? level_getNumberOfConstraints l)%nat
  then bind (copy_loop copyTo_ALU (fun _ => true) cs (lv_tasks l) (k0, 0%nat)) (fun r => Ok (fst r))
  else Ok k0.

(** the tasks visited by a loop which stops at the first simple task, hierarchy_level.h:432-434 *)
Fixpoint until_simple (ts : list tinfo) : list tinfo :=
  match ts with
  | [] => []
  | i :: rest => if ct_isSimple (tk_type (ti_task i)) then [] else i :: until_simple rest
  end.

(** hierarchy_level.h:423-440 *)
Definition getGeneralConstraints (cs : nat -> constr) (l : level) (k : contALU) (nv : nat) : outcome contALU :=
  let k0 := reset_ALU k (n_general l) nv in
  if (0 <? n_general l)%nat
  then bind (copy_loop copyTo_ALU (fun _ => true) cs (until_simple (lv_tasks l)) (k0, 0%nat)) (fun r => Ok (fst r))
  else Ok k0.

(** hierarchy_level.h:450-470 *)
Definition getSimpleConstraints (cs : nat -> constr) (l : level) (k : contILU) (nv : nat) : outcome contILU :=
  let k0 := reset_ILU k (n_simple l) nv in
  if (0 <? n_simple l)%nat
  then bind (copy_loop copyTo_ILU ct_isSimple cs (lv_tasks l) (k0, 0%nat)) (fun r => Ok (fst r))
  else Ok k0.
