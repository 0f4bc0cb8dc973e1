(** * Specification vocabulary for C86, C87: trees of rigid bodies and their motions *)
From Coq Require Import List Reals Arith.
From Verif Require Import Base Mat3 RSum Matrix RotarySpec Rbdl.
Import ListNotations.
Open Scope R_scope.

(** a tree of bodies: body 0 is the world, the parent of each body precedes it; each joint has its own range of the vector of
    coordinates; a motion subspace has one column for each coordinate; joints which are not custom have one or three coordinates *)
Definition tree (l : rb) : Prop :=
  let n := length (rb_bodies l) in
  (0 < n)%nat /\ length (rb_X l) = n /\ length (rb_joints l) = n /\ length (rb_lambda l) = n /\
  (n <= rb_disc l <= rb_max l)%nat /\
  (forall i x, nth_error (rb_X l) i = Some x -> rotation (sx_E x)) /\
  nth_error (rb_X l) 0 = Some (SX m3id v3zero) /\
  (forall i p, (0 < i)%nat -> nth_error (rb_lambda l) i = Some p -> (p < i)%nat) /\
  (forall i j, (0 < i)%nat -> nth_error (rb_joints l) i = Some j ->
     (j_custom j = false -> j_dof j = 1%nat \/ j_dof j = 3%nat) /\ mrows (j_S j) = 6%nat /\ mcols (j_S j) = j_dof j /\
     (j_q j + j_dof j <= rb_q l)%nat) /\
  (forall j, nth_error (rb_joints l) 0 = Some j -> j_custom j = false /\ j_dof j = 0%nat) /\
  (forall i k a b c, (0 < i < k)%nat -> nth_error (rb_joints l) i = Some a -> nth_error (rb_joints l) k = Some b ->
     ~ ((j_q a <= c < j_q a + j_dof a)%nat /\ (j_q b <= c < j_q b + j_dof b)%nat)) /\
  (forall i p x, nth_error (rb_fixed l) i = Some (p, x) -> (p < n)%nat /\ rotation (sx_E x)).

(** links: bodies which move, and bodies fixed to one of them, with special numbers *)
Definition movable (l : rb) (id : nat) : Prop := (id < length (rb_bodies l))%nat.
Definition fixed_to (l : rb) (id parent : nat) (x : sxform) : Prop :=
  (rb_disc l <= id < rb_max l)%nat /\ nth_error (rb_fixed l) (id - rb_disc l) = Some (parent, x).

(** orientation and position of a link in the world *)
Inductive frame (l : rb) (id : nat) : m3 -> v3 -> Prop :=
| frame_movable x : movable l id -> nth_error (rb_X l) id = Some x -> frame l id (m3trans (sx_E x)) (sx_r x)
| frame_fixed p x O o : fixed_to l id p x -> movable l p -> frame l p O o ->
    frame l id (m3mul O (m3trans (sx_E x))) (v3add o (m3app O (sx_r x))).
Definition link (l : rb) (id : nat) : Prop := exists O o, frame l id O o.

(** entrywise derivative of a vector *)
Definition v3_derivative (f : R -> v3) (t : R) (d : v3) : Prop :=
  derivable_pt_lim (fun s => vx (f s)) t (vx d) /\ derivable_pt_lim (fun s => vy (f s)) t (vy d) /\ derivable_pt_lim (fun s => vz (f s)) t (vz d).

(** the velocity of a joint in the coordinates of its body: the rotational and the translational part of S dq *)
Definition joint_velocity (j : rb_joint) (dq : vec) (r : nat) : R :=
  Rsum (j_dof j) (fun c => mget (j_S j) r c * vget dq (j_q j + c)).
Definition joint_angular (j : rb_joint) (dq : vec) : v3 := V3 (joint_velocity j dq 0) (joint_velocity j dq 1) (joint_velocity j dq 2).
Definition joint_linear (j : rb_joint) (dq : vec) : v3 := V3 (joint_velocity j dq 3) (joint_velocity j dq 4) (joint_velocity j dq 5).

(** the structure of the robot, which does not change when it moves *)
Definition same_robot (a b : rb) : Prop :=
  rb_bodies a = rb_bodies b /\ rb_lambda a = rb_lambda b /\ rb_fixed a = rb_fixed b /\ rb_disc a = rb_disc b /\
  rb_max a = rb_max b /\ rb_q a = rb_q b /\ rb_names a = rb_names b /\
  map (fun j => (j_custom j, j_dof j, j_q j)) (rb_joints a) = map (fun j => (j_custom j, j_dof j, j_q j)) (rb_joints b).

(** [M] is a motion of a robot, whose joints move at the time [t] with the velocities [dq]: the frame of each body moves, with respect
    to the frame of its parent, with the velocity of its joint *)
Definition motion (M : R -> rb) (t : R) (dq : vec) : Prop :=
  (forall s, tree (M s) /\ same_robot (M s) (M t)) /\ vlen dq = rb_q (M t) /\
  forall i p j (O Op : R -> m3) (o op : R -> v3),
    (0 < i)%nat -> nth_error (rb_lambda (M t)) i = Some p -> nth_error (rb_joints (M t)) i = Some j ->
    (forall s, frame (M s) i (O s) (o s)) -> (forall s, frame (M s) p (Op s) (op s)) ->
    m3_derivative (fun s => m3mul (m3trans (Op s)) (O s)) t (m3mul (m3mul (m3trans (Op t)) (O t)) (skew (joint_angular j dq))) /\
    v3_derivative (fun s => m3app (m3trans (Op s)) (v3sub (o s) (op s))) t
                  (m3app (m3mul (m3trans (Op t)) (O t)) (joint_linear j dq)).

(** the state of the bridge after it was loaded and updated with the model [l] of the library, whatever it was before *)
Definition updated (l : rb) (m : rmodel) : Prop :=
  exists m0 m1 junk first, rm_load junk (Some first) m0 = Ok m1 /\ same_robot l first /\ rm_update l m1 = Ok m.

(** rows [r], [r+1], [r+2] of J dq *)
Definition rows3 (J : mat) (dq : vec) (r : nat) : v3 := let y := mulv J dq in V3 (vget y r) (vget y (r + 1)) (vget y (r + 2)).

(** the masses of bodies and the positions of their centres of mass in the world *)
Definition masses_at (l : rb) (ids : list nat) (ms : list (R * v3)) : Prop :=
  Forall2 (fun id mp => exists c O o, nth_error (rb_bodies l) id = Some (fst mp, c) /\ frame l id O o /\ snd mp = v3add o (m3app O c)) ids ms.
Definition mass_sum (ms : list (R * v3)) : R := fold_right (fun mp s => fst mp + s) 0 ms.
Definition moment (ms : list (R * v3)) : v3 := fold_right (fun mp s => v3add (v3scale (fst mp) (snd mp)) s) v3zero ms.
(** all bodies except the world *)
Definition all_bodies (l : rb) : list nat := seq 1 (length (rb_bodies l) - 1).
