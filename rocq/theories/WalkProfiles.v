(** * Matrices and profiles of the walking MPC problem (/repo/modules/wpg04/include/wpg04/mpc_wpg.h)

    [junk k] are the values of the uninitialised memory of the k-th allocated matrix. *)
From Coq Require Import String List Reals Arith Bool.
From Verif Require Import Base RSum Matrix Mat2 Mat3 SmallMatrix BlockMatrix Kronecker Condense PointMass6z Solution MpcGuess PepperPreview PepperModel PepperMpc.
Import ListNotations.
Local Open Scope R_scope.

(** preview_horizon.h:96-106, 389-390: the values of an interval which are used here; T_ is T_ms_ / 1000, omega_ is given by the height *)
Record walk_interval := mkWI { wi_T_ms : nat; wi_height : R }.
(** preview_horizon.h:96-106, 389 *)
Definition wi_T (v : walk_interval) : R := INR (wi_T_ms v) / 1000.
(** preview_horizon.h:390 *)
Definition wi_omega (v : walk_interval) : R := getOmega (wi_height v).

(** the members V_, V0_, Vfp_, vfp_, Rh_, S_, s_, Sdz_, sdz_ *)
Record walk_matrices := mkWM { wmRh : bmat; wmV : mat; wmV0 : mat; wmVfp : mat; wmvfp : mat; wmS : mat; wms : mat; wmSdz : mat; wmsdz : mat }.

(** Eigen support.replicate(n, 1) *)
Definition replicate2 (support : vec) (n : nat) : mat := mkMat (n * 2) 1 (fun i _ => vget support (i mod 2)).
(** mpc_wpg.h:67-73: Ir_; [N] is intervals_.size(), [steps] variable_steps_indices_; a step index behind the end gives a block
    of negative size, which Eigen refuses *)
Definition form_Ir (N : nat) (steps : list nat) : outcome mat :=
  for_up (length steps) 0 (fun i m => bind (vec_at steps i) (fun s =>
    assert_then (s <=? N)%nat (putb m s i (N - s) 1 (mkMat (N - s) 1 (fun _ _ => 1))))) (mzero N (length steps)).
(** mpc_wpg.h:79-81: Identity().replicate(n, n).triangularView<Lower>() *)
Definition lower_identities (n : nat) : mat :=
  lower_part (mkMat (n * 2) (n * 2) (fun i j => if (i mod 2 =? j mod 2)%nat then 1 else 0)).
(** Eigen rowwise().sum() (mpc_wpg.h:310-380) *)
Definition rowwise_sum (m : mat) : mat := mkMat (mrows m) 1 (fun i _ => Rsum (mcols m) (fun j => mget m i j)).
(** Eigen comma initialiser of an r x c matrix with two blocks side by side (mpc_wpg.h:32-84, 310-380) *)
Definition comma2 (r c : nat) (a b : mat) : outcome mat :=
  assert_then ((mrows a =? r)%nat && (mrows b =? r)%nat && (mcols a + mcols b =? c)%nat) (Ok (mhcat a b)).

(** mpc_wpg.h:32-84 (formRotationMatrices, formFootPosMatrices) and 310-380 (update, after the horizon has been formed).
    [N] is preview_horizon_length_ and the number of intervals; [Rs] are the blocks of R_ (which rotations they are is C67),
    [Rhs] the blocks of Rh_ *)
Definition walk_update (junk : nat -> nat -> nat -> R) (N : nat) (iv : list walk_interval) (Rhs : list m2) (steps : list nat) (Rs : list m2)
    (support cstate : vec) : outcome walk_matrices :=
  let nvar := getNumberOfVariables (structure_wpg N (length steps)) in
  bind (bm_diag 2 2 (map mat22 Rs)) (fun Rm => bind (bm_diag 2 2 (map mat22 Rhs)) (fun Rh =>
  let V0 := replicate2 support N in
  bind (form_Ir N steps) (fun Ir =>
  bind (kron_make Ir 2 1 1) (fun k => bind (kron1_multiplyRight (junk 0%nat) false k Rm (mzero 0 0)) (fun V =>
  bind (mmul_o (lower_identities (length steps)) (raw Rm)) (fun Vfp =>
  let vfp := replicate2 support (length steps) in
  if (length iv <? N)%nat then UB else
  let iv := firstn N iv in
  let A := map (fun v => mat33 (getA3 (wi_T v) (wi_omega v) (wi_T v))) iv in
  let B := map (fun v => col3 (getB3 (wi_T v) (wi_omega v) (wi_T v))) iv in
  let D := map (fun v => row3 (getD3 (wi_T v) (wi_omega v))) iv in
  let E := map (fun v => mkMat 1 1 (fun _ _ => 1 / wi_T v)) iv in
  bind (condense (junk 1%nat) 3 1 A B) (fun U => let Ux := fst U in let Uu := snd U in
  bind (condenseOutput (junk 2%nat) 1 3 1 D E Ux Uu) (fun O => let Ox := fst O in let Ou := snd O in
  bind (bm_multiplyRight Uu Ir) (fun UI => bind (bm_finalize UI 3 1) (fun UuIr =>
  bind (bm_multiplyRight_llt1 Ou Ir) (fun OI => bind (bm_finalize OI 1 1) (fun OuIr =>
  bind (bm_finalize (rowwise_sum (raw Uu)) 3 1) (fun Uu1n => bind (bm_finalize (rowwise_sum (raw Ou)) 1 1) (fun Ou1n =>
  (* S_, s_ *)
  bind (kron_make (raw Uu) 2 3 1) (fun k => bind (kron_multiplyRight (junk 3%nat) true k Rh) (fun S0 =>
  bind (kron_make (raw UuIr) 2 3 1) (fun k => bind (kron_multiplyRight (junk 4%nat) false k Rm) (fun S1 =>
  bind (comma2 (6 * N) nvar S0 S1) (fun Sm =>
  bind (kron2_vector (junk 5%nat) (junk 6%nat) Uu1n support) (fun s0 => bind (kron2_vector (junk 7%nat) (junk 8%nat) Ux cstate) (fun s1 =>
  bind (madd_o s0 s1) (fun s =>
  (* Sdz_, sdz_ *)
  bind (kron_make (raw Ou) 2 1 1) (fun k => bind (kron1_multiplyRight (junk 9%nat) true k Rh (mzero 0 0)) (fun Z0 =>
  bind (kron_make (raw OuIr) 2 1 1) (fun k => bind (kron1_multiplyRight (junk 10%nat) false k Rm (mzero 0 0)) (fun Z1 =>
  bind (comma2 (2 * N) nvar Z0 Z1) (fun Sdz =>
  bind (kron_make (raw Ou1n) 2 1 1) (fun k => bind (kron1_multiplyRight_vector k (column_of support)) (fun z0 =>
  bind (kron2_vector (junk 11%nat) (junk 12%nat) Ox cstate) (fun z1 =>
  bind (madd_o z0 z1) (fun sdz =>
  Ok (mkWM Rh V V0 Vfp vfp Sm s Sdz sdz)))))))))))))))))))))))))))))))).

(** cop_profile, dcop_profile, cstate_profile, footpos_profile (mpc_wpg.h:251-254) *)
Record walk_profiles := mkWP { wp_cop : vec; wp_dcop : vec; wp_cstate : vec; wp_footpos : vec }.
(** the sum with the assertion of Eigen on the sizes, mpc_wpg.h:400-419 *)
Definition vadd_o (a b : vec) : outcome vec := assert_then (vlen a =? vlen b)%nat (Ok (vadd a b)).
(** the product with the assertion of Eigen on the sizes, mpc_wpg.h:400-419 *)
Definition mulv_o (m : mat) (x : vec) : outcome vec := assert_then (mcols m =? vlen x)%nat (Ok (mulv m x)).
(** mpc_wpg.h:400-420 *)
Definition walk_parse (junk : nat -> nat -> R) (M : walk_matrices) (sol : solution) : outcome walk_profiles :=
  bind (getSolutionPart sol COP) (fun cop => bind (getSolutionPart sol FOOTPOS) (fun fp =>
  let cop := vec_of_list cop in let fp := vec_of_list fp in let x := vcat cop fp in
  bind (bm_multiplyRight_diag junk (wmRh M) (column_of cop)) (fun c0 =>
  bind (mulv_o (wmV M) fp) (fun c1 => bind (vadd_o (vec_of c0) c1) (fun c2 => bind (vadd_o c2 (vec_of (wmV0 M))) (fun cop_profile =>
  bind (affine (wmSdz M) (wmsdz M) x) (fun dcop =>
  bind (affine (wmS M) (wms M) x) (fun cstate =>
  bind (affine (wmVfp M) (wmvfp M) fp) (fun footpos =>
  Ok (mkWP cop_profile dcop cstate footpos)))))))))).

(** mpc_wpg.h:554-600 getCoMState; the loop over the intervals is com_interval *)
Definition getCoMState (iv : list walk_interval) (p : walk_profiles) (cstate : vec) (time_ms : nat) : outcome point_mass_state :=
  bind (com_interval (map wi_T_ms iv) time_ms) (fun '(index, offset, T_ms) =>
  bind (vec_at iv index) (fun v =>
  bind (if (index =? 0)%nat then Ok cstate else vsegment (wp_cstate p) ((index - 1) * 6) 6) (fun preceding =>
  bind (vsegment (wp_cop p) (index * 2) 2) (fun control =>
  Ok (evaluate (INR offset / 1000) (INR T_ms / 1000) (wi_height v) preceding control))))).

(** mpc_wpg.h:100-110: the CoM state of the next model state; [Ts] is the subsampling time *)
Definition next_com_state (iv : list walk_interval) (p : walk_profiles) (cstate : vec) (Ts : R) : outcome point_mass_state :=
  bind (vec_at iv 0) (fun v => bind (vsegment (wp_cop p) 0 2) (fun control => Ok (evaluate Ts (wi_T v) (wi_height v) cstate control))).
