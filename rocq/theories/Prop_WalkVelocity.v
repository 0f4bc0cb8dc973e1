(** * Property C102: reference velocities along the preview horizon. Vocabulary in WalkPreviewSpec.v. *)
From Coq Require Import List Arith Bool Reals Sorted Lia.
From Verif Require Import Base StanceFSM StanceSpec StanceFSMFacts WalkPreview WalkPreviewSpec WalkVelocityFacts.
Import ListNotations.
Local Open Scope nat_scope.

(** Each interval refers to the velocity of the first stance, of walking or of the last stance. The velocity is taken from the walk state of the interval, or from the transitional double support before it *)
Theorem C102_velocity : forall f m ly ry inc s h,
  form f m ly ry inc s = Finished (Ok (Some h)) -> forall i iv w,
  interval_at h i iv -> nth_error (h_states h) (iv_state iv) = Some w ->
  exists v, nth_error (h_states h) (iv_velocity iv) = Some v /\
    (iv_velocity iv = iv_state iv /\ iv_state iv = 0 \/ S (iv_velocity iv) = iv_state iv /\ st_type (ws_stance v) = TDS) /\
    ws_vel v = match st_type (ws_stance w), subtype (ws_stance w) with
               | DS, FIRST => if iv_velocity iv =? iv_state iv then VelFirst else VelLast
               | DS, _ => VelLast
               | _, _ => VelWalk
               end.
Proof. exact form_velocity. Qed.

(** a walk with two steps, the horizon at its start *)
Example C102_case : exists s0 h, init (mkParams DS RSS DS 700 100 300 2900 2) = Ok s0 /\ form 20 (mkMpc 24 100 100 100) 1 2 (1/10) s0 = Finished (Ok (Some h)) /\
  (forall i, i < 24 -> exists iv v, interval_at h i iv /\ nth_error (h_states h) (iv_velocity iv) = Some v /\ ws_vel v = if i <? 3 then VelFirst else if i <? 19 then VelWalk else VelLast).
Proof.
  eexists. eexists. split; [reflexivity|]. split; [vm_compute; reflexivity|].
  intros i L. do 24 (destruct i as [|i]; [eexists; eexists; split; [reflexivity|split; reflexivity]|]). lia.
Qed.
Print Assumptions C102_velocity.

Print Assumptions C102_velocity.
