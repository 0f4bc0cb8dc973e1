(** * The walking program with guesses: the walk with default parameters *)
From Coq Require Import String List Reals Arith Bool ZArith Lra Lia.
From Verif Require Import Base BaseFacts Matrix LeftRight FootParameters PointMass6z PointMass6zSpec StanceFSM StanceSpec StanceTimeFacts WalkPreview WalkPreviewSpec WalkMpc QpoasesBridge Backends BackendsSpec Solver SolverLife SolverLifeSpec
  WalkLoop WalkLoopSpec WalkLoopFacts9 WalkProgram WalkProgramSpec WalkProgramFacts6 WalkProgramFacts7 WalkProgramFacts8.
Import ListNotations.
Local Open Scope nat_scope.

Theorem hot_case : exists F, forall fuel junk nan fixed hs es, F <= fuel -> exists s lib,
  let se := ex_settings fixed hs in let es' := fun n => with_library (es n) (lib n) in
  launched default_params (ex_loop default_mpc 0) (prim default_feet) se (ex_par true) ex_centering None ex_world s /\
  library_is right_answer fuel junk nan se es' s /\ library_is sensible_answer fuel junk nan se es' s /\
  forall n, n < 74 -> exists x x' k, steps_to fuel junk nan se es' s n x x' /\ asked fuel junk nan se es' s n k.
Proof.
  destruct (program_solvable default_params (ex_loop default_mpc 0)) as [F1 K1]. destruct (program_complete default_params (ex_loop default_mpc 0)) as [F2 K2].
  exists (F1 + F2 + (stances_left (wl_fsm (ex_loop default_mpc 0)) + 1)). intros fuel junk nan fixed hs es FU. destruct (ex_launched fixed hs true) as [s La].
  destruct (K1 fuel junk nan _ _ _ _ _ _ s es ltac:(lia) La) as (lib & Li & Se). exists s, lib. cbv zeta.
  assert (Un : understood fuel junk nan (ex_settings fixed hs) (fun n => with_library (es n) (lib n)) s) by (intros _; exact Se).
  split; [exact La|]. split; [exact Li|]. split; [exact Se|]. intros n L.
  assert (X : forall m, m <= 74 -> exists x, pg_after fuel junk nan (ex_settings fixed hs) (fun n => with_library (es n) (lib n)) s m = Finished (Ok (Some x))).
  { intros m Lm. destruct (K2 fuel junk nan _ _ _ _ _ _ s _ ltac:(lia) La Un Li m) as (o & A & B).
    change (total_ms default_params) with (89 * 100) in B. change (horizon_length (wg_par (wl_wpg (ex_loop default_mpc 0)))) with 16 in B. change (sampling_ms (wg_par (wl_wpg (ex_loop default_mpc 0)))) with 100 in B.
    destruct o as [x|]; [exists x; exact A|]. exfalso. apply (proj2 B); [right; lia|reflexivity]. }
  destruct (X n ltac:(lia)) as [x A]. destruct (X (S n) ltac:(lia)) as [x' A']. assert (FU' : stances_left (wl_fsm (ex_loop default_mpc 0)) + 1 <= fuel) by lia.
  destruct (stepped default_params (ex_loop default_mpc 0) fuel junk nan _ _ _ _ _ _ s FU' La _ Un n x x' (conj A A')) as (_ & _ & g & f & q & so & h & rs & M & l0 & l1 & t & k & pf & _ & As & _).
  exists x, x', k. split; [split; assumption|exact As].
Qed.
