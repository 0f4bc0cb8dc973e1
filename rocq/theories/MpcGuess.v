(** * Guess of the solution of the next MPC iteration
    (/repo/modules/pepper_mpc/include/pepper_mpc/mpc_mg.h,
     /repo/modules/wpg04/include/wpg04/mpc_wpg.h)

    [guess] and [old] are different objects.  The length of a location is an unsigned integer: when it is
    less than two, decreasing it by two gives a huge number; the location is then rejected by the assertion in
    getData or by Eigen's assertion on a block (negative size after conversion to a signed index). *)
From Coq Require Import String List Arith Bool Reals.
From Verif Require Import Base Solution.
Import ListNotations.
Local Open Scope string_scope.

(** pepper_mpc/common.h:17-18 *)
Definition BASE_VEL : string := "base_vel".
(** pepper_mpc/common.h:18 *)
Definition BODY_JERK : string := "body_pos".
(** wpg04/common.h:17-18 *)
Definition COP : string := "CoP".
(** wpg04/common.h:18 *)
Definition FOOTPOS : string := "footpos".

(** [solution_guess.getData(guess_part) = old_solution.getData(old_part)] (mpc_mg.h:613-647, mpc_wpg.h:502-544) *)
Definition copy_part (guess old : solution) (guess_part old_part : Location) : outcome solution :=
  bind (getData old old_part) (fun d => setData guess guess_part d).

(** length_ -= 2 and offset_ += 2, length_ -= 2 *)
Definition without_last2 (l : Location) : outcome Location := assert_then (2 <=? len l)%nat (Ok (mkLoc (offset l) (len l - 2))).
(** mpc_mg.h:636-645, mpc_wpg.h:510-519 *)
Definition without_first2 (l : Location) : outcome Location := assert_then (2 <=? len l)%nat (Ok (mkLoc (offset l + 2) (len l - 2))).

(** mpc_mg.h:624-632, 636-645; mpc_wpg.h:510-519 *)
Definition copy_shifted (guess old : solution) (id : string) : outcome solution :=
  bind (without_last2 (getSolutionPartLocation (sol_structure guess) id)) (fun g =>
  bind (without_first2 (getSolutionPartLocation (sol_structure old) id)) (fun o => copy_part guess old g o)).

(** mpc_mg.h:613-647 *)
Definition guessSolution_pepper (st : structure) (old : solution) : outcome solution :=
  let guess := sol_initialize_value st 0%R in
  if isNonEmpty (sol_structure old) && negb (getNumberOfVariables (sol_structure old) =? 0)%nat
  then bind (copy_shifted guess old BASE_VEL) (fun g => copy_shifted g old BODY_JERK)
  else Ok guess.

(** mpc_wpg.h:502-544 *)
Definition guessSolution_wpg (st : structure) (old : solution) : outcome solution :=
  let guess := sol_initialize_value st 0%R in
  if isNonEmpty (sol_structure old) && negb (getNumberOfVariables (sol_structure old) =? 0)%nat
  then bind (copy_shifted guess old COP) (fun g =>
       let old_part := getSolutionPartLocation (sol_structure old) FOOTPOS in
       let guess_part := getSolutionPartLocation (sol_structure g) FOOTPOS in
       if (len old_part =? len guess_part)%nat then copy_part g old guess_part old_part
       else if (len guess_part <? len old_part)%nat
       then bind (without_first2 old_part) (fun o => copy_part g old guess_part o)
       else bind (without_last2 guess_part) (fun l => copy_part g old l old_part))
  else Ok guess.

(** mpc_mg.h:83-85 and mpc_wpg.h:314-316: the structures of the solutions for [N] intervals and [M] variable steps *)
Definition structure_pepper (N : nat) : structure :=
  addSolutionPart (addSolutionPart structure_reset BASE_VEL (N * 2)) BODY_JERK (N * 2).
(** mpc_wpg.h:314-316 *)
Definition structure_wpg (N M : nat) : structure :=
  addSolutionPart (addSolutionPart structure_reset COP (N * 2)) FOOTPOS (M * 2).
