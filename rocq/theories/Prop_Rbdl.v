(** * Properties C86 and C87: the bridge to RBDL. Vocabulary in RbdlSpec.v. *)
From Coq Require Import String List Arith Bool Reals Lra Lia Permutation.
From Verif Require Import Base Mat3 RSum Matrix RotarySpec SpatialTransform Rbdl RbdlSpec RbdlFacts RbdlComFacts RbdlExample.
Import ListNotations.
Local Open Scope R_scope.

(** C86. A robot which can be loaded can be updated, whatever was loaded before *)
Theorem C86_update : forall (l : rb) (m0 : rmodel) (junk : nat -> joint_data) (first : rb),
  tree l -> same_robot l first -> exists m1 m, rm_load junk (Some first) m0 = Ok m1 /\ rm_update l m1 = Ok m /\ updated l m.
Proof. exact updated_exists. Qed.
(** C86. Positions and orientations of tags *)
Theorem C86_poses : forall (l : rb) (m : rmodel) (id : nat) (p : v3) (O : m3) (o : v3),
  tree l -> updated l m -> frame l id O o ->
  position_link m id = Ok o /\ orientation_link m id = Ok O /\
  position_point m (id, p) = Ok (v3add o (m3app O p)) /\ orientation_point m (id, p) = Ok O.
Proof. exact tag_pose. Qed.
(** C86. The Jacobian of a tag times the velocities of joints is the velocity of the tag *)
Theorem C86_velocity : forall (M : R -> rb) (t : R) (dq : vec) (MS : R -> rmodel) (id : nat) (p : v3),
  motion M t dq -> (forall s, updated (M s) (MS s)) -> link (M t) id ->
  exists P O J Jt Jr,
    (forall s, position_point (MS s) (id, p) = Ok (P s) /\ orientation_point (MS s) (id, p) = Ok (O s)) /\
    jacobian_point COMPLETE (MS t) (id, p) = Ok J /\ mrows J = 6%nat /\ mcols J = getDOFNumber (MS t) /\
    jacobian_point TRANSLATION (MS t) (id, p) = Ok Jt /\ mrows Jt = 3%nat /\ mcols Jt = getDOFNumber (MS t) /\
    jacobian_point ROTATION (MS t) (id, p) = Ok Jr /\ mrows Jr = 3%nat /\ mcols Jr = getDOFNumber (MS t) /\
    m3_derivative O t (m3mul (skew (rows3 J dq 0)) (O t)) /\ v3_derivative P t (rows3 J dq 3) /\
    rows3 Jr dq 0 = rows3 J dq 0 /\ rows3 Jt dq 0 = rows3 J dq 3.
Proof. exact tag_velocity. Qed.
(** C86. A tag of a link is the tag of its origin *)
Theorem C86_links : forall (M : R -> rb) (t : R) (dq : vec) (MS : R -> rmodel) (id : nat) (k : spatial_type),
  motion M t dq -> (forall s, updated (M s) (MS s)) -> link (M t) id ->
  jacobian_link k (MS t) id = jacobian_point k (MS t) (id, v3zero) /\ position_link (MS t) id = position_point (MS t) (id, v3zero) /\
  orientation_link (MS t) id = orientation_point (MS t) (id, v3zero).
Proof. exact link_is_point. Qed.
(** C86. The Jacobian of the centre of mass *)
Theorem C86_com_velocity : forall (M : R -> rb) (t : R) (dq : vec) (MS : R -> rmodel) (old : mat),
  motion M t dq -> (forall s, updated (M s) (MS s)) -> (1 < length (rb_bodies (M t)))%nat ->
  exists P J, (forall s, position_com (MS s) = Ok (P s)) /\ jacobian_com old (MS t) = Ok J /\ mrows J = 3%nat /\ mcols J = getDOFNumber (MS t) /\
    v3_derivative P t (rows3 J dq 0).
Proof. exact com_velocity. Qed.
(** C86. The Jacobian of the centre of mass of several bodies *)
Theorem C86_partial_com_velocity : forall (M : R -> rb) (t : R) (dq : vec) (MS : R -> rmodel) (old : mat) (names : list string),
  motion M t dq -> (forall s, updated (M s) (MS s)) -> names <> [] -> Forall (fun s => movable (M t) (getLinkId (M t) s)) names ->
  exists tag P J, getCoMTag (M t) names = Ok tag /\
    (forall s, position_partial (MS s) tag = Ok (P s)) /\ jacobian_partial old (MS t) tag = Ok J /\ mrows J = 3%nat /\ mcols J = getDOFNumber (MS t) /\
    v3_derivative P t (rows3 J dq 0).
Proof. exact partial_com_velocity. Qed.

(** C87. The centre of mass of the robot *)
Theorem C87_com : forall (l : rb) (m : rmodel) (ms : list (R * v3)),
  tree l -> updated l m -> masses_at l (all_bodies l) ms ->
  mass_com m = mass_sum ms /\
  (mass_sum ms <> 0 -> exists c, position_com m = Ok c /\ v3scale (mass_sum ms) c = moment ms).
Proof. exact com_is_mean. Qed.
(** C87. The centre of mass of several bodies *)
Theorem C87_partial_com : forall (l : rb) (m : rmodel) (names : list string) (ms : list (R * v3)),
  tree l -> updated l m -> Forall (fun s => movable l (getLinkId l s)) names ->
  masses_at l (map (getLinkId l) names) ms ->
  exists tag, getCoMTag l names = Ok tag /\ mass_partial tag = mass_sum ms /\
  (mass_sum ms <> 0 -> exists c, position_partial m tag = Ok c /\ v3scale (mass_sum ms) c = moment ms).
Proof. exact partial_com_is_mean. Qed.
(** C87. Centres of mass of groups of bodies *)
Theorem C87_groups : forall (l : rb) (m : rmodel) (groups : list (list string)) (c : v3) (total : R),
  tree l -> updated l m ->
  Permutation (map (getLinkId l) (concat groups)) (all_bodies l) -> mass_com m = total -> total <> 0 -> position_com m = Ok c ->
  exists tags : list tag_partial, Forall2 (fun g tag => getCoMTag l g = Ok tag) groups tags /\
    total = fold_right (fun tag s => mass_partial tag + s) 0 tags /\
    (Forall (fun tag => mass_partial tag <> 0) tags -> exists cs, Forall2 (fun tag p => position_partial m tag = Ok p) tags cs /\
       v3scale total c = fold_right (fun x s => v3add (v3scale (mass_partial (fst x)) (snd x)) s) v3zero (combine tags cs)).
Proof. exact com_partition. Qed.
(** C87. Tags do not depend on the configuration *)
Theorem C87_tags : forall (a b : rb) (name : string),
  same_robot a b -> getLinkTag a name = getLinkTag b name /\ getLinkCoMTag a name = getLinkCoMTag b name.
Proof. exact tags_constant. Qed.
(** C87. A name which does not exist is accepted; the tag reads memory out of range *)
Theorem C87_unknown_name_refuted : forall (l : rb) (m : rmodel) (name : string) (p : v3),
  tree l -> updated l m -> (forall k, ~ In (name, k) (rb_names l)) ->
  exists tag, getLinkTag l name = tag /\ getPointTag l name p = (tag, p) /\ getLinkCoMTag l name = UB /\ getCoMTag l [name] = UB /\
    position_link m tag = UB /\ position_point m (tag, p) = UB /\ orientation_link m tag = UB /\ mass_link m tag = UB /\
    jacobian_link COMPLETE m tag = UB.
Proof. exact unknown_name. Qed.
(** C87. The mass of a fixed link is read out of range *)
Theorem C87_fixed_mass_refuted : forall (l : rb) (m : rmodel) (name : string) (parent : nat) (x : sxform),
  tree l -> updated l m -> fixed_to l (getLinkId l name) parent x ->
  getLinkCoMTag l name = UB /\ getCoMTag l [name] = UB /\ mass_link m (getLinkTag l name) = UB /\
  exists o, position_link m (getLinkTag l name) = Ok o.
Proof. exact fixed_mass. Qed.

(** an arm which turns and stretches at the same time; the tool is fixed to its end *)
Example C86_case : motion ex_robot 1 ex_dq /\ (forall s, updated (ex_robot s) (ex_model s)) /\ link (ex_robot 1) 10 /\
  (exists O o, frame (ex_robot 1) 10 O o /\ o = V3 (2 * cos 1) (2 * sin 1) 1) /\
  (1 < length (rb_bodies (ex_robot 1)))%nat /\
  Forall (fun s => movable (ex_robot 1) (getLinkId (ex_robot 1) s)) ["arm"%string; "base"%string].
Proof.
  split; [apply ex_motion|]. split; [apply ex_model_updated|]. split; [apply ex_tool_link|]. split; [|split; [cbn; lia|]].
  - exists (link_O (ex_robot 1) 10), (link_o (ex_robot 1) 10). split; [apply link_frame; [apply ex_tree|apply ex_tool_link]|].
    unfold link_o. cbn. unfold v3add, m3app; cbn. f_equal; ring.
  - repeat constructor; unfold movable; cbn; lia.
Qed.
Example C87_case : exists m ms c, updated (ex_robot 0) m /\ masses_at (ex_robot 0) (all_bodies (ex_robot 0)) ms /\ mass_sum ms = 3 /\
  position_com m = Ok c /\ c = V3 (1 / 2) 0 0 /\
  Permutation (map (getLinkId (ex_robot 0)) (List.concat [["arm"%string]; ["base"%string]])) (all_bodies (ex_robot 0)) /\
  (forall k, ~ In ("hand"%string, k) (rb_names (ex_robot 0))) /\ fixed_to (ex_robot 0) (getLinkId (ex_robot 0) "tool") 2 (SX m3id (V3 0 0 1)).
Proof.
  exists (ex_model 0), [(2, v3zero); (1, V3 (3 / 2) 0 0)], (V3 (1 / 2) 0 0). split; [apply ex_model_updated|].
  assert (MA : masses_at (ex_robot 0) (all_bodies (ex_robot 0)) [(2, v3zero); (1, V3 (3 / 2) 0 0)]).
  { constructor; [|constructor; [|constructor]].
    - exists v3zero, (body_O (ex_robot 0) 1), (body_o (ex_robot 0) 1). split; [reflexivity|]. split; [apply t_frame; [apply ex_tree|unfold movable; cbn; lia]|].
      cbn. v3ring.
    - exists (V3 (1 / 2) 0 0), (body_O (ex_robot 0) 2), (body_o (ex_robot 0) 2). split; [reflexivity|]. split; [apply t_frame; [apply ex_tree|unfold movable; cbn; lia]|].
      cbn. unfold v3add, m3app; cbn. rewrite cos_0, sin_0. f_equal; lra. }
  assert (MS : mass_sum [(2, v3zero); (1, V3 (3 / 2) 0 0)] = 3) by (unfold mass_sum; cbn; lra).
  split; [exact MA|]. split; [exact MS|].
  destruct (com_is_mean (ex_robot 0) (ex_model 0) _ (ex_tree 0) (ex_model_updated 0) MA) as (_ & H). destruct H as (c & E & Ec); [rewrite MS; lra|].
  rewrite MS in Ec. unfold moment, v3scale, v3add, v3zero in Ec. cbn in Ec. injection Ec as E1 E2 E3.
  split; [rewrite E; f_equal; apply v3_ext; cbn; lra|]. split; [reflexivity|]. split; [apply perm_swap|]. split.
  - intros k H. cbn in H. destruct H as [H|[H|[H|[]]]]; discriminate.
  - split; [cbn; lia|reflexivity].
Qed.

Print Assumptions C86_update. Print Assumptions C86_poses. Print Assumptions C86_velocity. Print Assumptions C86_links. Print Assumptions C86_com_velocity. Print Assumptions C86_partial_com_velocity. Print Assumptions C87_com. Print Assumptions C87_partial_com. Print Assumptions C87_groups. Print Assumptions C87_tags. Print Assumptions C87_unknown_name_refuted. Print Assumptions C87_fixed_mass_refuted.
