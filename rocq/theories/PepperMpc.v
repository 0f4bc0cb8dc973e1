(** * Matrices, profiles and predicted states of the Pepper MPC problem (/repo/modules/pepper_mpc/include/pepper_mpc/mpc_mg.h)

    [junk k] are the values of the uninitialised memory of the k-th allocated matrix. *)
From Coq Require Import String List Reals Arith Bool ZArith.
From Verif Require Import Base RSum Matrix Mat2 Mat3 SmallMatrix BlockMatrix Kronecker Condense TripleIntegrator PointMass6z Solution
  PepperPreview MpcGuess PepperModel.
Import ListNotations.
Local Open Scope R_scope.

(** Eigen: Matrix2 assigned to a block, mpc_mg.h:80-263 *)
Definition mat22 (m : m2) : mat :=
  mkMat 2 2 (fun i j => match i, j with 0%nat, 0%nat => a00 m | 0%nat, _ => a01 m | _, 0%nat => a10 m | _, _ => a11 m end).
(** the rotation of an interval; an unset interval has NaNs there, which are not modelled (preview_horizon.h:274-280) *)
Definition in_rotation (i : interval) : outcome m2 := match in_set i with Some (r, _, _, _) => Ok r | None => UB end.
(** no code of its own: the loops over intervals, mpc_mg.h:80-263 *)
Fixpoint sequence {A} (l : list (outcome A)) : outcome (list A) :=
  match l with [] => Ok [] | a :: r => bind a (fun x => bind (sequence r) (fun y => Ok (x :: y))) end.
(** mpc_mg.h:31-39 formRotationMatrices *)
Definition formRotationMatrices (l : list interval) : outcome bmat :=
  bind (sequence (map in_rotation l)) (fun rs => bm_diag 2 2 (map (fun r => mat22 (m2trans r)) rs)).

(** eigentools/blockmatrix.h:200-207 selectRowInBlocks: row [row] of each block; simplified, the strided map over the
    rows is C44 (selectRows in Eigentools.v) *)
Definition selectRowInBlocks (b : bmat) (row : nat) : bmat :=
  mkBm (mkMat (num_blocks_vert b) (mcols (raw b)) (fun i j => mget (raw b) (i * block_rows b + row) j)) 1 (block_cols b).

(** the product of a block Kronecker product of identity size 2 and a vector *)
Definition kron2_vector (junk junk' : nat -> nat -> R) (b : bmat) (v : vec) : outcome mat :=
  bind (kron_make (raw b) 2 (block_rows b) (block_cols b)) (fun k => kron_multiplyRight_vector junk junk' k (column_of v)).
(** its dense form; left lower triangular matrices (mpc_mg.h:80-263 with blockmatrix_kronecker.h:458-480) *)
Definition kron2_evaluate (b : bmat) : outcome mat :=
  bind (kron_make (raw b) 2 (block_rows b) (block_cols b)) (fun k => kron_evaluate true k).
(** evaluation into a block, mpc_mg.h:80-263 with blockmatrix_kronecker.h:494-498 *)
Definition kron2_evaluate_block (b : bmat) (out : mat) (i0 j0 r c : nat) : outcome mat :=
  bind (kron_make (raw b) 2 (block_rows b) (block_cols b)) (fun k => kron_evaluate_block true k out i0 j0 r c).
(** diagonal block matrix times the Kronecker product of a left lower triangular matrix with 1x1 blocks *)
Definition diag_kron2 (d b : bmat) : outcome mat :=
  bind (kron_make (raw b) 2 1 1) (fun k => kron1_multiplyLeft k d (mzero 0 0)).
(** the difference with the assertion of Eigen on the sizes, mpc_mg.h:80-263 *)
Definition msub_o (a b : mat) : outcome mat := assert_then ((mrows a =? mrows b)%nat && (mcols a =? mcols b)%nat) (Ok (msub a b)).

(** the members S_, s_, Ap_, sp_, Aas_, sas_, Aps_, sps_, Apd_, spd_, Ajs_, sjs_ (mpc_mg.h:49-72) *)
Record pepper_matrices := mkPM2 { pmS : mat; pms : mat; pmAp : mat; pmsp : mat; pmAas : mat; pmsas : mat; pmAps : mat; pmsps : mat;
  pmApd : mat; pmspd : mat; pmAjs : mat; pmsjs : mat }.

(** mpc_mg.h:80-263 updateMatrices; [N] is preview_horizon_length_ and [l] the intervals of the preview horizon *)
Definition updateMatrices (junk : nat -> nat -> nat -> R) (N : nat) (l : list interval) (model : pepper_state) : outcome pepper_matrices :=
  let nvar := getNumberOfVariables (structure_pepper N) in
  bind (formRotationMatrices l) (fun Rm =>
  if (length l <? N)%nat then UB else
  let iv := firstn N l in
  let As := map (fun v => mat33 (AVel3 (in_T v))) iv in
  let Bs := map (fun v => col3 (BVel3 (in_T v))) iv in
  let Ad := map (fun v => mat33 (AJerk3 (in_T v))) iv in
  let Bd := map (fun v => col3 (BJerk3 (in_T v))) iv in
  let Djs := map (fun v => row3 (D3 Vel (in_T v))) iv in
  let Ejs := map (fun v => mkMat 1 1 (fun _ _ => E3 Vel (in_T v))) iv in
  bind (bm_diag 1 3 (map (fun v => row3 (Dps3 (in_base_height v) (in_base_mass v) (in_body_mass v))) iv)) (fun Dps =>
  bind (bm_diag 1 3 (map (fun v => row3 (Dpd3 (in_body_height v) (in_base_mass v) (in_body_mass v))) iv)) (fun Dpd =>
  bind (condense (junk 0%nat) 3 1 As Bs) (fun US => let Uxs := fst US in let Uus := snd US in
  bind (condense (junk 1%nat) 3 1 Ad Bd) (fun UD => let Uxd := fst UD in let Uud := snd UD in
  bind (condenseOutput (junk 2%nat) 1 3 1 Djs Ejs Uxs Uus) (fun O => let Ojxs := fst O in let Ojus := snd O in
  let base := mpc_state6 (ps_base model) in
  let body := mpc_state6 (ps_body model) in
  let ns := (12 * N)%nat in
  (* S_, s_ *)
  let r := (ns / 2)%nat in let c := (nvar / 2)%nat in
  bind (bm_resize (junk 3%nat) r c 2 2) (fun S0 =>
  bind (kron2_evaluate_block Uus (raw S0) 0 0 r c) (fun S1 =>
  bind (putb S1 0 c r c (mzero r c)) (fun S2 =>
  bind (putb S2 r 0 r c (mzero r c)) (fun S3 =>
  bind (kron2_evaluate_block Uud S3 r c r c) (fun Sm =>
  bind (kron2_vector (junk 4%nat) (junk 5%nat) Uxs base) (fun s0 =>
  bind (kron2_vector (junk 6%nat) (junk 7%nat) Uxd body) (fun s1 =>
  assert_then (mrows s0 + mrows s1 =? ns)%nat (
  (* sp_, Ap_ *)
  bind (bm_mul_diag_by (junk 8%nat) Dps Uxs) (fun DUxs => bind (bm_mul_diag_by (junk 9%nat) Dpd Uxd) (fun DUxd =>
  bind (kron2_vector (junk 10%nat) (junk 11%nat) (mkBm DUxs 1 3) base) (fun sp0 =>
  bind (kron2_vector (junk 12%nat) (junk 13%nat) (mkBm DUxd 1 3) body) (fun sp1 =>
  bind (madd_o sp0 sp1) (fun sp =>
  bind (bm_mul_diag_by (junk 14%nat) Dps Uus) (fun DUus => bind (bm_mul_diag_by (junk 15%nat) Dpd Uud) (fun DUud =>
  bind (kron2_evaluate_block (mkBm DUus 1 1) (mkMat (2 * N) nvar (junk 16%nat)) 0 0 (2 * N) c) (fun Ap0 =>
  bind (kron2_evaluate_block (mkBm DUud 1 1) Ap0 0 (nvar - c) (2 * N) c) (fun Ap =>
  (* sas_, Aas_, sps_, Aps_ *)
  bind (kron2_vector (junk 17%nat) (junk 18%nat) (selectRowInBlocks Uxs 2) base) (fun sas =>
  bind (kron2_evaluate (selectRowInBlocks Uus 2)) (fun Aas =>
  bind (kron2_vector (junk 19%nat) (junk 20%nat) (selectRowInBlocks Uxs 0) base) (fun sps =>
  bind (kron2_evaluate (selectRowInBlocks Uus 0)) (fun Aps =>
  (* spd_, Apd_ *)
  bind (kron2_vector (junk 21%nat) (junk 22%nat) (selectRowInBlocks Uxd 0) body) (fun spb =>
  bind (msub_o sps spb) (fun spr =>
  bind (bm_multiplyRight_diag (junk 23%nat) Rm spr) (fun spd =>
  bind (diag_kron2 Rm (selectRowInBlocks Uus 0)) (fun Apd0 =>
  bind (diag_kron2 Rm (selectRowInBlocks Uud 0)) (fun Apd1 =>
  assert_then ((mrows Apd0 =? 2 * N)%nat && (mrows Apd1 =? 2 * N)%nat && (mcols Apd0 + mcols Apd1 =? nvar)%nat) (
  (* sjs_, Ajs_ *)
  bind (kron2_vector (junk 24%nat) (junk 25%nat) Ojxs base) (fun sjs =>
  bind (kron2_evaluate Ojus) (fun Ajs =>
  Ok (mkPM2 Sm (mvcat s0 s1) Ap sp Aas sas Aps sps (mhcat Apd0 (mopp Apd1)) spd Ajs sjs)))))))))))))))))))))))))))))))))))).

(** affine profiles A x + a; Eigen asserts the sizes (mpc_mg.h:537-551) *)
Definition affine (A a : mat) (x : vec) : outcome vec :=
  assert_then ((mcols A =? vlen x)%nat && (mrows A =? mrows a)%nat) (Ok (vadd (mulv A x) (vec_of a))).
(** segment() with the assertion of Eigen, mpc_mg.h:275-328 *)
Definition vsegment (v : vec) (first n : nat) : outcome vec :=
  assert_then (first + n <=? vlen v)%nat (Ok (mkVec n (fun i => vget v (first + i)))).
(** getData() of a solution as a vector, mpc_mg.h:537-551 *)
Definition vec_of_list (l : list R) : vec := mkVec (length l) (fun i => nth i l 0).

(** cstate_profile_, cop_profile_, base_jerk_profile_, base_controls_, body_controls_ (mpc_mg.h:31-39) *)
Record pepper_profiles := mkPP { pp_cstate : vec; pp_cop : vec; pp_jerk : vec; pp_base_controls : vec; pp_body_controls : vec }.
(** mpc_mg.h:559-570 *)
Definition parseSolution (N : nat) (M : pepper_matrices) (sol : solution) : outcome pepper_profiles :=
  let x := vec_of_list (sol_x sol) in
  bind (affine (pmS M) (pms M) x) (fun cstate =>
  bind (affine (pmAp M) (pmsp M) x) (fun cop =>
  bind (vsegment x 0 (getNumberOfVariables (structure_pepper N) / 2)) (fun xb =>
  bind (affine (pmAjs M) (pmsjs M) xb) (fun jerk =>
  bind (getSolutionPart sol BASE_VEL) (fun u =>
  bind (getSolutionPart sol BODY_JERK) (fun w =>
  Ok (mkPP cstate cop jerk (vec_of_list u) (vec_of_list w)))))))).

(** intervals_[i], unchecked, mpc_mg.h:275-328 *)
Definition interval_at (l : list interval) (i : nat) : outcome interval := vec_at l i.

(** mpc_mg.h:275-328 getModelState; the segments base_control and body_control at 312-313 are computed and not used *)
Definition getModelState (N : nat) (l : list interval) (p : pepper_profiles) (model : pepper_state) (index : nat) (offset : R) : outcome pepper_state :=
  bind (interval_at l index) (fun v =>
  bind (if (index =? 0)%nat then Ok (vz (ps_rpy model)) else bind (interval_at l (index - 1)) (fun w => Ok (in_theta w))) (fun theta_prev =>
  let theta := theta_prev + (in_theta v - theta_prev) * offset / in_T v in
  bind (if (index =? 0)%nat then Ok (mpc_state12 model)
        else bind (vsegment (pp_cstate p) ((index - 1) * 12 / 2) (12 / 2)) (fun a =>
             bind (vsegment (pp_cstate p) (N * 12 / 2 + (index - 1) * 12 / 2) (12 / 2)) (fun b => Ok (vcat a b)))) (fun preceding =>
  bind (vsegment (pp_base_controls p) (index * 2) 2) (fun _ => bind (vsegment (pp_body_controls p) (index * 2) 2) (fun _ =>
  bind (vsegment (pp_base_controls p) 0 2) (fun u => bind (vsegment (pp_body_controls p) 0 2) (fun w =>
  getNextState ps_default (in_T v) offset preceding u w (in_base_height v) (in_body_height v) theta))))))).

(** mpc_mg.h:49-72 initializeNextModelState *)
Definition initializeNextModelState (l : list interval) (p : pepper_profiles) (model : pepper_state) : outcome pepper_state :=
  bind (interval_at l 0) (fun v =>
  bind (vsegment (pp_base_controls p) 0 2) (fun u => bind (vsegment (pp_body_controls p) 0 2) (fun w =>
  getNextState ps_default (in_T v) (in_T v) (mpc_state12 model) u w (in_base_height v) (in_body_height v) (in_theta v)))).
