(** * The bridge to RBDL (/repo/bridges/rbdl/interface/rbdl/model.h, tag.h).

    RBDL itself is not in the repository. Its model (a tree of bodies with the transforms computed by
    UpdateKinematicsCustom) is a record; what the bridge computes from it is modelled. Indexing of std::vector
    out of range is undefined behaviour. Reading of URDF files and the pointers to tags are not modelled. *)
From Coq Require Import String List Reals Arith Bool.
From Verif Require Import Base Mat3 Matrix SpatialTransform Condense.
Import ListNotations.
Open Scope R_scope.

(** ** The part of RBDL used by the bridge (RBDL: SpatialAlgebraOperators.h, Model.h; not in /repo) *)

(** SpatialTransform: [sx_E] rotates to the coordinates of the body, [sx_r] is its position (RBDL; used by model.h:664-745) *)
Record sxform := SX { sx_E : m3; sx_r : v3 }.
(** SpatialTransform::operator* (RBDL; used by model.h:719-745) *)
Definition sx_mul (a b : sxform) : sxform :=
  SX (m3mul (sx_E a) (sx_E b)) (v3add (sx_r b) (m3app (m3trans (sx_E b)) (sx_r a))).
(** SpatialTransform::inverse() (RBDL; used by model.h:759-802) *)
Definition sx_inverse (a : sxform) : sxform := SX (m3trans (sx_E a)) (v3opp (m3app (sx_E a) (sx_r a))).
(** the components of a spatial vector (RBDL; used by model.h:759-802) *)
Definition v6_get (w v : v3) (r : nat) : R :=
  match r with 0%nat => vx w | 1%nat => vy w | 2%nat => vz w | 3%nat => vx v | 4%nat => vy v | _ => vz v end.
(** SpatialTransform::apply(): one spatial vector, here a matrix with one column (RBDL; used by model.h:759-802) *)
Definition sx_apply (a : sxform) (s : mat) : mat :=
  let w := V3 (mget s 0 0) (mget s 1 0) (mget s 2 0) in
  let v := V3 (mget s 3 0 - vy (sx_r a) * mget s 2 0 + vz (sx_r a) * mget s 1 0)
              (mget s 4 0 - vz (sx_r a) * mget s 0 0 + vx (sx_r a) * mget s 2 0)
              (mget s 5 0 - vx (sx_r a) * mget s 1 0 + vy (sx_r a) * mget s 0 0) in
  mkMat 6 1 (fun r _ => v6_get (m3app (sx_E a) w) (m3app (sx_E a) v) r).
(** the entries of a 3x3 matrix *)
Definition m3_get (a : m3) (i j : nat) : R :=
  match i, j with
  | 0%nat, 0%nat => m00 a | 0%nat, 1%nat => m01 a | 0%nat, _ => m02 a
  | 1%nat, 0%nat => m10 a | 1%nat, 1%nat => m11 a | 1%nat, _ => m12 a
  | _, 0%nat => m20 a | _, 1%nat => m21 a | _, _ => m22 a
  end.
(** SpatialTransform::toMatrix() (RBDL; used by model.h:759-802) *)
Definition sx_toMatrix (a : sxform) : mat :=
  let e := sx_E a in
  let erx := m3mul e (M3 0 (- vz (sx_r a)) (vy (sx_r a)) (vz (sx_r a)) 0 (- vx (sx_r a)) (- vy (sx_r a)) (vx (sx_r a)) 0) in
  mkMat 6 6 (fun i j =>
    if (i <? 3)%nat then if (j <? 3)%nat then m3_get e i j else 0
    else if (j <? 3)%nat then - m3_get erx (i - 3) j else m3_get e (i - 3) (j - 3)).

(** Joint: mJointType == JointTypeCustom, number of degrees of freedom (of the joint or of the custom joint), q_index, and the
    motion subspace: S[i], multdof3_S[i] or mCustomJoints[k]->S *)
Record rb_joint := mkJoint { j_custom : bool; j_dof : nat; j_q : nat; j_S : mat }.
(** Model: mBodies (mass, centre of mass), X_base, mJoints, lambda, mFixedBodies (mMovableParent, mParentTransform),
    fixed_body_discriminator, std::numeric_limits<unsigned int>::max(), q_size, mBodyNameMap (RBDL; used by model.h:99-135, 646-864) *)
Record rb := mkRb {
  rb_bodies : list (R * v3);
  rb_X : list sxform;
  rb_joints : list rb_joint;
  rb_lambda : list nat;
  rb_fixed : list (nat * sxform);
  rb_disc : nat;
  rb_max : nat;
  rb_q : nat;
  rb_names : list (string * nat)
}.
(** Model::GetBodyId() (RBDL; used by model.h:742-745) *)
Fixpoint rb_GetBodyId (names : list (string * nat)) (max : nat) (id : string) : nat :=
  match names with
  | [] => max
  | (n, k) :: rest => if String.eqb n id then k else rb_GetBodyId rest max id
  end.

(** ** The bridge *)

(** model.h:646-657: JointData: dof_number_, transformed_joint_axis_ *)
Definition joint_data := (nat * mat)%type.
(** model.h:37-50: rbdl_model_, total_mass_, joint_data_ *)
Record rmodel := mkRM { rm_lib : rb; rm_total : R; rm_jd : list joint_data }.

(** resize() of a std::vector; [junk] are the contents of the new elements (model.h:664-693) *)
Definition resized {A} (l : list A) (n : nat) (junk : nat -> A) : list A :=
  firstn n l ++ map junk (seq (length l) (n - length l)).
(** model.h:99-120: load(); [lib] is what is read from the file, None if reading fails *)
Definition rm_load (junk : nat -> joint_data) (lib : option rb) (m : rmodel) : outcome rmodel :=
  match lib with
  | None => Throw
  | Some l =>
      bind (for_up (length (rb_bodies l) - 1) 1 (fun i s => bind (vec_at (rb_bodies l) i) (fun b => Ok (s + fst b))) 0) (fun total =>
        Ok (mkRM l total (resized (rm_jd m) (length (rb_joints l)) junk)))
  end.

(** model.h:664-693: JointData::compute() *)
Definition jd_compute (l : rb) (i : nat) (old : joint_data) : outcome joint_data :=
  bind (vec_at (rb_joints l) i) (fun j =>
    if j_custom j then
      bind (vec_at (rb_X l) i) (fun x => bind (mmul_o (sx_toMatrix (sx_inverse x)) (j_S j)) (fun a => Ok (j_dof j, a)))
    else
      match j_dof j with
      | 1%nat => bind (vec_at (rb_X l) i) (fun x => Ok (1%nat, sx_apply (sx_inverse x) (j_S j)))
      | 3%nat => bind (vec_at (rb_X l) i) (fun x => bind (mmul_o (sx_toMatrix (sx_inverse x)) (j_S j)) (fun a => Ok (3%nat, a)))
      | d => Ok (d, snd old)
      end).
(** model.h:128-135: update(); [l] is the model of the library after UpdateKinematicsCustom *)
Definition rm_update (l : rb) (m : rmodel) : outcome rmodel :=
  bind (for_up (length (rm_jd m)) 0 (fun i d => bind (vec_at d i) (fun o => bind (jd_compute l i o) (fun n => write_at d i n))) (rm_jd m)) (fun d =>
    Ok (mkRM l (rm_total m) d)).

(** model.h:143-146 *)
Definition getDOFNumber (m : rmodel) : nat := rb_q (rm_lib m).
(** model.h:742-745 *)
Definition getLinkId (l : rb) (id : string) : nat := rb_GetBodyId (rb_names l) (rb_max l) id.
(** model.h:719-731 *)
Definition isLinkFixed (l : rb) (id : nat) : bool :=
  (rb_disc l <=? id)%nat && (id <? rb_max l)%nat && (id - rb_disc l <? length (rb_fixed l))%nat.
(** model.h:851-864 *)
Definition getLinkTransform (l : rb) (id : nat) : outcome sxform :=
  if isLinkFixed l id then
    bind (vec_at (rb_fixed l) (id - rb_disc l)) (fun f => bind (vec_at (rb_X l) (fst f)) (fun x => Ok (sx_mul (snd f) x)))
  else vec_at (rb_X l) id.
(** model.h:759-785 *)
Definition expressInRootFrame (l : rb) (id : nat) (p : v3) : outcome v3 :=
  if isLinkFixed l id then
    bind (vec_at (rb_fixed l) (id - rb_disc l)) (fun f => bind (vec_at (rb_X l) (fst f)) (fun x =>
      Ok (v3add (sx_r x) (m3app (m3trans (sx_E x)) (v3add (sx_r (snd f)) (m3app (m3trans (sx_E (snd f))) p))))))
  else bind (vec_at (rb_X l) id) (fun x => Ok (v3add (sx_r x) (m3app (m3trans (sx_E x)) p))).
(** model.h:796-802 *)
Definition getPointTagPosition (l : rb) (id : nat) (p : v3) : outcome v3 :=
  bind (getLinkTransform l id) (fun x => Ok (v3add (m3app (m3trans (sx_E x)) p) (sx_r x))).

(** tag.h:26-38, 46-62, 80-98: tags of links, points and sets of links *)
Definition tag_link := nat.
(** tag.h:51-65 *)
Definition tag_point := (nat * v3)%type.
(** tag.h:85-98 *)
Definition tag_partial := (list nat * R)%type.

(** model.h:158-162, 173-179 *)
Definition getLinkTag (l : rb) (id : string) : tag_link := getLinkId l id.
(** model.h:173-179 *)
Definition getPointTag (l : rb) (id : string) (p : v3) : tag_point := (getLinkId l id, p).
(** model.h:189-195 *)
Definition getLinkCoMTag (l : rb) (id : string) : outcome tag_point :=
  bind (vec_at (rb_bodies l) (getLinkId l id)) (fun b => Ok (getLinkId l id, snd b)).
(** model.h:205-221 *)
Definition getCoMTag (l : rb) (ids : list string) : outcome tag_partial :=
  for_up (length ids) 0 (fun i t => bind (vec_at ids i) (fun s =>
    bind (vec_at (rb_bodies l) (getLinkId l s)) (fun b => Ok (fst t ++ [getLinkId l s], snd t + fst b)))) ([], 0).

(** model.h:244-266; division of all components *)
Definition position_partial (m : rmodel) (t : tag_partial) : outcome v3 :=
  bind (for_up (length (fst t)) 0 (fun i c =>
          bind (vec_at (fst t) i) (fun id =>
          bind (vec_at (rb_bodies (rm_lib m)) id) (fun b =>
          bind (getPointTagPosition (rm_lib m) id (snd b)) (fun p => Ok (v3add c (v3scale (fst b) p)))))) v3zero) (fun c =>
    Ok (v3scale (/ snd t) c)).
(** model.h:276-279 *)
Definition position_link (m : rmodel) (t : tag_link) : outcome v3 := bind (getLinkTransform (rm_lib m) t) (fun x => Ok (sx_r x)).
(** model.h:289-292 *)
Definition position_point (m : rmodel) (t : tag_point) : outcome v3 := getPointTagPosition (rm_lib m) (fst t) (snd t).
(** model.h:303-319 *)
Definition position_com (m : rmodel) : outcome v3 :=
  bind (for_up (length (rb_bodies (rm_lib m)) - 1) 1 (fun i c =>
          bind (vec_at (rb_bodies (rm_lib m)) i) (fun b =>
          bind (getPointTagPosition (rm_lib m) i (snd b)) (fun p => Ok (v3add c (v3scale (fst b) p))))) v3zero) (fun c =>
    Ok (v3scale (/ rm_total m) c)).
(** model.h:331-334, 344-347 *)
Definition orientation_link (m : rmodel) (t : tag_link) : outcome m3 :=
  bind (getLinkTransform (rm_lib m) t) (fun x => Ok (m3trans (sx_E x))).
(** model.h:344-347 *)
Definition orientation_point (m : rmodel) (t : tag_point) : outcome m3 := orientation_link m (fst t).
(** model.h:401-404, 414-417, 427-430 *)
Definition mass_com (m : rmodel) : R := rm_total m.
(** model.h:414-417 *)
Definition mass_partial (t : tag_partial) : R := snd t.
(** model.h:427-430 *)
Definition mass_link (m : rmodel) (t : tag_link) : outcome R := bind (vec_at (rb_bodies (rm_lib m)) t) (fun b => Ok (fst b)).

(** model.h:832-840: the loop over the joints from a link to the root; [fuel] bounds the number of joints on the way *)
Fixpoint jacobian_loop (fuel : nat) (k : spatial_type) (m : rmodel) (trans : v3) (id : nat) (J : mat) : outcome mat :=
  match fuel with
  | O => UB
  | S f =>
      if (id =? 0)%nat then Ok J
      else
        bind (vec_at (rb_joints (rm_lib m)) id) (fun j =>
        bind (vec_at (rm_jd m) id) (fun d =>
          assert_then (j_q j + fst d <=? mcols J)%nat
            (bind (st_applySelective k trans (mrows J) (fst d) (snd d)) (fun B =>
             bind (vec_at (rb_lambda (rm_lib m)) id) (fun p =>
               jacobian_loop f k m trans p (mset_block J 0 (j_q j) B))))))
  end.
(** model.h:815-841 *)
Definition tag_jacobian (k : spatial_type) (m : rmodel) (id : nat) (p : v3) : outcome mat :=
  bind (if isLinkFixed (rm_lib m) id
        then bind (vec_at (rb_fixed (rm_lib m)) (id - rb_disc (rm_lib m))) (fun f => Ok (fst f)) else Ok id) (fun joint =>
  bind (getNumberOfElements k) (fun rows =>
  bind (expressInRootFrame (rm_lib m) id p) (fun trans =>
    jacobian_loop (S joint) k m trans joint (mzero rows (getDOFNumber m))))).

(** model.h:475-480, 491-496 *)
Definition jacobian_link (k : spatial_type) (m : rmodel) (t : tag_link) : outcome mat := tag_jacobian k m t v3zero.
(** model.h:491-496 *)
Definition jacobian_point (k : spatial_type) (m : rmodel) (t : tag_point) : outcome mat := tag_jacobian k m (fst t) (snd t).
(** one step of the loops below: the first term is assigned, the others are added (model.h:440-464, 506-527) *)
Definition accumulate (m : rmodel) (first : bool) (id : nat) (J : mat) : outcome mat :=
  bind (vec_at (rb_bodies (rm_lib m)) id) (fun b =>
  bind (tag_jacobian TRANSLATION m id (snd b)) (fun Ji =>
    if first then Ok (mscale (fst b) Ji) else madd_o J (mscale (fst b) Ji))).
(** model.h:440-464; [old] are the contents of the matrix before the call *)
Definition jacobian_partial (old : mat) (m : rmodel) (t : tag_partial) : outcome mat :=
  bind (for_up (length (fst t)) 0 (fun i J => bind (vec_at (fst t) i) (fun id => accumulate m (i =? 0)%nat id J)) old) (fun J =>
    Ok (mscale (/ snd t) J)).
(** model.h:506-527 *)
Definition jacobian_com (old : mat) (m : rmodel) : outcome mat :=
  bind (for_up (length (rb_bodies (rm_lib m)) - 1) 1 (fun i J => accumulate m (i =? 1)%nat i J) old) (fun J =>
    Ok (mscale (/ rm_total m) J)).
