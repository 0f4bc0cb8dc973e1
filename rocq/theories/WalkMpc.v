(** * Matrices of the walking MPC problem (/repo/modules/wpg04/include/wpg04/mpc_wpg.h) *)
From Coq Require Import List Arith Bool Reals.
From Verif Require Import Base StanceFSM WalkPreview.
Import ListNotations.

(** mpc_wpg.h:38-46: the indices of the walk states whose rotations are written to the blocks 0, 1, ... of R_; the last
    state is not visited *)
Definition rotation_states (ws : list walk_state) : list nat :=
  filter (fun i => match nth_error ws i with Some w => negb (is_tds (st_type (ws_stance w))) | None => false end) (seq 0 (length ws - 1)).
(** mpc_wpg.h:32-53 formRotationMatrices: R_ has one diagonal block per variable step; Eigen asserts that a written block
    is inside of the matrix.  The blocks which are not written stay zero. *)
Definition form_rotations (h : horizon) : outcome (list nat) :=
  let l := rotation_states (h_states h) in
  assert_then (length l <=? length (h_steps h)) (Ok l).
