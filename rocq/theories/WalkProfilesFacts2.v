(** * Proofs about the profiles of the walking MPC problem (C73, C74) *)
From Coq Require Import String List Reals Arith Lra Lia Bool Sorting.Sorted.
From Verif Require Import Base BaseFacts RSum Matrix Mat2 Mat3 SmallMatrix BlockMatrix BlockMatrixFacts BlockMatrixSpec GridFill BlockProductFacts Condense CondenseSpec CondenseFacts
  PointMass6z PointMass6zSpec PointMass6zFacts Solution MpcGuess MpcGuessFacts PepperPreview PepperPreviewSpec PepperPreviewFacts PepperModel PepperMpc KronAxisFacts PepperMpcFacts PepperMpcFacts2
  WalkProfiles WalkProfilesSpec WalkProfilesFacts.
Import ListNotations.
Local Open Scope R_scope.

(** ** steps *)
Lemma turned_frame Rs x a k : (k < length Rs)%nat -> turned (map mat22 Rs) x (axis_index a) k = from_frame (nth k Rs m2id) (vget x (k * 2)) (vget x (k * 2 + 1)) a.
Proof.
  intros Hk. assert (E : nth_error Rs k = Some (nth k Rs m2id)) by (apply nth_error_nth'; exact Hk).
  unfold turned. rewrite (mat_at_map mat22 Rs k _ E). rewrite Nat.add_0_r || idtac. destruct a; cbn [Rsum mat22 mget axis_index from_frame]; rewrite Nat.add_0_r; ring.
Qed.
Lemma sorted_nth l j k : Sorted le l -> (j <= k)%nat -> (k < length l)%nat -> (nth j l 0 <= nth k l 0)%nat.
Proof.
  intros H. apply Sorted_StronglySorted in H; [|intros x y z; lia]. revert j k. induction H as [|a l H IH F]; intros j k Hj Hk; [cbn in Hk; lia|].
  destruct k; [replace j with 0%nat by lia; lia|]. cbn [length] in Hk. destruct j.
  - cbn [nth]. rewrite Forall_forall in F. apply F. apply nth_In. lia.
  - cbn [nth]. apply IH; lia.
Qed.
(** the steps made by interval i are the first ones *)
Lemma steps_made_iff l i j : Sorted le l -> (j < length l)%nat -> (nth j l 0 <= i)%nat <-> (j < steps_made l i)%nat.
Proof.
  intros H. apply Sorted_StronglySorted in H; [|intros x y z; lia]. revert j. induction H as [|a l H IH F]; intros j Hj; [cbn in Hj; lia|].
  unfold steps_made. cbn [filter]. destruct (Nat.leb_spec a i).
  - cbn [length] in *. destruct j; cbn [nth]; [lia|]. rewrite IH by lia. fold (steps_made l i). unfold steps_made. lia.
  - assert (Z : filter (fun s => (s <=? i)%nat) l = []).
    { clear IH Hj. induction F as [|b l Hb F IHF]; [reflexivity|]. cbn [filter]. destruct (Nat.leb_spec b i); [lia|]. apply IHF. inversion H; assumption. }
    rewrite Z. cbn [length]. rewrite Forall_forall in F. split; [|lia]. intros Q. destruct j; cbn [nth] in Q; [lia|]. cbn [length] in Hj.
    assert (a <= nth j l 0)%nat by (apply F; apply nth_In; lia). lia.
Qed.
Lemma steps_made_le l i : (steps_made l i <= length l)%nat.
Proof. unfold steps_made. induction l as [|a l IH]; cbn [filter length]; [lia|]. destruct (_ <=? _)%nat; cbn [length]; lia. Qed.
Lemma made_sum l i g : Sorted le l -> Rsum (length l) (fun j => (if (nth j l 0 <=? i)%nat then 1 else 0) * g j) = Rsum (steps_made l i) g.
Proof.
  intros H. pose proof (steps_made_le l i) as L. replace (length l) with (steps_made l i + (length l - steps_made l i))%nat at 1 by lia. rewrite Rsum_split.
  rewrite (Rsum_zero (length l - _)).
  - rewrite Rplus_0_r. apply Rsum_ext. intros j Hj. replace (nth j l 0 <=? i)%nat with true; [ring|]. symmetry. apply Nat.leb_le. apply steps_made_iff; [exact H|lia|exact Hj].
  - intros j Hj. replace (nth (steps_made l i + j) l 0 <=? i)%nat with false; [ring|]. symmetry. apply Nat.leb_gt. destruct (Nat.le_gt_cases (nth (steps_made l i + j) l 0%nat) i) as [Q|Q]; [|exact Q].
    apply steps_made_iff in Q; [lia|exact H|lia].
Qed.
Lemma support_sum N Rs support sol f j a : (j <= length Rs)%nat -> (forall i b, (i < length Rs)%nat -> vget f (i * 2 + axis_index b) = step_local N sol i b) ->
  support_after N Rs support sol j a = Rsum j (turned (map mat22 Rs) f (axis_index a)) + vget support (axis_index a).
Proof.
  intros Hj H. induction j as [|j IH]; cbn [support_after Rsum]; [ring|]. rewrite IH by lia. rewrite turned_frame by lia.
  pose proof (H j AxisX ltac:(lia)) as HX. pose proof (H j AxisY ltac:(lia)) as HY. cbn [axis_index] in HX, HY. rewrite Nat.add_0_r in HX. rewrite HX, HY. ring.
Qed.

(** ** one step of the point mass *)
Lemma walk_step A B u x0 k T h c w a : mat_at A k = mat33 (getA3 T (getOmega h) T) -> mat_at B k = col3 (getB3 T (getOmega h) T) -> vget u k = vget w (axis_index a) ->
  (forall p, (p < 3)%nat -> vget c (3 * axis_index a + p) = vget (simulate A B 1 u x0 k) p) ->
  let s := evaluate T T h c w in
  along a (pm_position s) = vget (simulate A B 1 u x0 (k + 1)) 0 /\ along a (pm_velocity s) = vget (simulate A B 1 u x0 (k + 1)) 1 /\
  along a (pm_acceleration s) = vget (simulate A B 1 u x0 (k + 1)) 2.
Proof.
  intros EA EB EU EC. rewrite Nat.add_1_r. cbn [simulate]. rewrite EA, EB.
  pose proof (EC 0%nat ltac:(lia)) as C0. pose proof (EC 1%nat ltac:(lia)) as C1. pose proof (EC 2%nat ltac:(lia)) as C2. clear EC EA EB.
  set (x := simulate A B 1 u x0 k) in *. clearbody x. unfold evaluate, getA6, getB6.
  set (A3 := getA3 T (getOmega h) T). set (B3 := getB3 T (getOmega h) T). clearbody A3 B3.
  destruct A3 as [? ? ? ? ? ? ? ? ?], B3 as [? ? ?].
  destruct a; cbn [axis_index Nat.mul Nat.add] in *;
  cbn - [Rplus Rmult]; rewrite ?Nat.mul_1_r, ?Nat.add_0_r, ?EU, <- ?C0, <- ?C1, <- ?C2; repeat split; ring.
Qed.
Lemma rate_step D E u x k T h c w a k0 : 0 < h -> T <> 0 -> mat_at D k = row3 (getD3 T (getOmega h)) -> mat_at E k = mkMat 1 1 (fun _ _ => 1 / T) -> vget u k = vget w (axis_index a) ->
  (forall p, (p < 3)%nat -> vget c (3 * axis_index a + p) = vget (x k) p) -> is_cop h (state_of c h) a k0 ->
  vget (output D E 1 u x k) 0 = (vget w (axis_index a) - k0) / T.
Proof.
  intros Hh HT ED EE EU EC K. rewrite <- (cop_rate T h c w a k0 Hh HT K). unfold output. rewrite ED, EE.
  pose proof (EC 0%nat ltac:(lia)) as C0. pose proof (EC 1%nat ltac:(lia)) as C1. pose proof (EC 2%nat ltac:(lia)) as C2. clear EC K ED EE.
  set (y := x k) in *. clearbody y. unfold getD6, getE6. set (D3 := getD3 T (getOmega h)). clearbody D3. destruct D3 as [? ? ?].
  destruct a; cbn [axis_index Nat.mul Nat.add] in *; cbn - [Rplus Rmult Rdiv]; rewrite ?Nat.mul_1_r, ?Nat.add_0_r, ?EU, <- ?C0, <- ?C1, <- ?C2; ring.
Qed.

(** ** the profiles *)
Lemma solution_parts_wpg N n sol : sol_structure sol = structure_wpg N n -> length (sol_x sol) = (2 * N + 2 * n)%nat ->
  getSolutionPart sol COP = Ok (firstn (N * 2) (sol_x sol)) /\ getSolutionPart sol FOOTPOS = Ok (skipn (N * 2) (sol_x sol)).
Proof.
  intros E L. unfold getSolutionPart, getData. rewrite E. destruct (loc_wpg N n) as (L1 & L2 & _). rewrite L1, L2. cbn [offset len].
  rewrite !assert_true by (apply checkLength_iff; cbn [offset len]; lia).
  unfold segment. split; [reflexivity|]. f_equal. apply firstn_all2. rewrite skipn_length. lia.
Qed.

Section Profiles.
Variables (junk : nat -> nat -> nat -> R) (N : nat) (iv : list walk_interval) (Rhs : list m2) (steps : list nat) (Rs : list m2) (support cstate : vec) (sol : solution).
Hypotheses (HF : formed_walk N iv Rhs steps Rs support cstate) (HS : sol_structure sol = structure_wpg N (length steps)) (HX : length (sol_x sol) = (2 * N + 2 * length steps)%nat).

Lemma walk_profiles_ok : exists M p, walk_update junk N iv Rhs steps Rs support cstate = Ok M /\ walk_parse (junk 13%nat) M sol = Ok p /\
  (vlen (wp_cop p) = 2 * N /\ vlen (wp_dcop p) = 2 * N /\ vlen (wp_cstate p) = 6 * N /\ vlen (wp_footpos p) = 2 * length steps)%nat /\
  (forall j a, (j < length steps)%nat -> vget (wp_footpos p) (2 * j + axis_index a) = support_after N Rs support sol (j + 1) a) /\
  forall k v a, nth_error iv k = Some v ->
    let i := (2 * k + axis_index a)%nat in
    vget (wp_cop p) i = commanded_cop N steps Rs Rhs support sol k a /\
    same_motion (state_of (cstate_at cstate p (k + 1)) (wi_height v)) (evaluate (wi_T v) (wi_T v) (wi_height v) (cstate_at cstate p k) (mkVec 2 (fun q => vget (wp_cop p) (2 * k + q)))) /\
    forall k0, is_cop (wi_height v) (state_of (cstate_at cstate p k) (wi_height v)) a k0 -> vget (wp_dcop p) i = (vget (wp_cop p) i - k0) / wi_T v.
Proof.
  destruct (walk_rows junk N iv Rhs steps Rs support cstate HF) as (M & EM & ERh & EV0 & EvF & VR & VC & FR & FC & SR & SC & (sR & _) & ZR & ZC & zR & RV & RF & RS & RZ).
  destruct HF as (HN & LI & LRh & LR & LS & LC & HV & HB & HO).
  set (ns := length steps) in *. destruct (solution_parts_wpg N ns sol HS HX) as (P1 & P2).
  set (c := vec_of_list (firstn (N * 2) (sol_x sol))). set (f := vec_of_list (skipn (N * 2) (sol_x sol))).
  assert (Lc : vlen c = (2 * N)%nat) by (unfold c; cbn [vec_of_list vlen]; rewrite firstn_length; lia).
  assert (Lf : vlen f = (2 * ns)%nat) by (unfold f; cbn [vec_of_list vlen]; rewrite skipn_length; lia).
  assert (Vc : forall k b, (k < N)%nat -> vget c (k * 2 + axis_index b) = cop_local sol k b).
  { intros k b Hk. unfold c, cop_local. cbn [vec_of_list vget]. rewrite nth_firstn_0 by (pose proof (axis_lt b); lia). f_equal. lia. }
  assert (Vf : forall j b, (j < length Rs)%nat -> vget f (j * 2 + axis_index b) = step_local N sol j b).
  { intros j b Hj. unfold f, step_local. cbn [vec_of_list vget]. rewrite nth_skipn_0. f_equal. lia. }
  assert (SbH : sized (map mat22 Rhs) 2 2) by (apply sized_map; intros; split; reflexivity).
  assert (LbH : length (map mat22 Rhs) = N) by (rewrite map_length; exact LRh).
  destruct (diag_mul_entry (junk 13%nat) (wmRh M) (map mat22 Rhs) 2 2 (column_of c) ltac:(lia) ltac:(lia) ERh SbH ltac:(cbn [column_of mrows]; lia)) as (c0 & E0 & C0R & C0C & C0E).
  rewrite LbH in C0R, C0E.
  exists M. eexists. split; [exact EM|]. split.
  { unfold walk_parse. rewrite P1. cbn [bind]. rewrite P2. cbn [bind]. fold c f. rewrite E0. cbn [bind].
    unfold mulv_o, vadd_o, affine. rewrite (assert_true (mcols (wmV M) =? vlen f)%nat) by (apply Nat.eqb_eq; lia). cbn [bind].
    rewrite (assert_true (vlen (vec_of c0) =? _)%nat) by (apply Nat.eqb_eq; cbn [vec_of mulv vlen]; lia). cbn [bind].
    rewrite (assert_true (vlen (vadd _ _) =? _)%nat) by (apply Nat.eqb_eq; rewrite EV0; cbn [vec_of vadd replicate2 vlen mrows]; lia). cbn [bind].
    repeat (rewrite assert_true by (rewrite andb_true_iff, !Nat.eqb_eq, ?EvF; cbn [vcat vlen replicate2 mrows]; lia); cbn [bind]). reflexivity. }
  set (p := mkWP _ _ _ _).
  split. { unfold p. cbn [wp_cop wp_dcop wp_cstate wp_footpos vadd vec_of mulv vlen]. lia. }
  split.
  { intros j a Hj. unfold p. cbn [wp_footpos vadd vget vec_of]. replace (2 * j + axis_index a)%nat with (j * 2 + axis_index a)%nat by lia. rewrite RF by (try apply axis_lt; assumption).
    rewrite EvF. cbn [replicate2 mget]. rewrite grid_mod by apply axis_lt. rewrite Nat.add_1_r. symmetry. apply support_sum; [lia|exact Vf]. }
  intros k v a Hv. assert (Hk : (k < N)%nat) by (rewrite <- LI; apply nth_error_Some; rewrite Hv; discriminate).
  destruct (HV v (nth_error_In _ _ Hv)) as [HT Hh].
  assert (HT' : wi_T v <> 0). { unfold wi_T. assert (0 < INR (wi_T_ms v)) by (apply lt_0_INR; exact HT). lra. }
  assert (COPM : forall k b, (k < N)%nat -> vget (wp_cop p) (2 * k + axis_index b) = moved_by Rhs steps Rs support c f (axis_index b) k).
  { intros k' b Hk'. unfold p. cbn [wp_cop vadd vget vec_of]. replace (2 * k' + axis_index b)%nat with (k' * 2 + axis_index b)%nat by lia.
    rewrite RV by (try apply axis_lt; assumption). rewrite C0E by (try apply axis_lt; try assumption; cbn [column_of mcols]; lia). rewrite EV0. cbn [replicate2 mget]. rewrite grid_mod by apply axis_lt. reflexivity. }
  assert (STATE : forall k b q, (k <= N)%nat -> (q < 3)%nat -> vget (cstate_at cstate p k) (3 * axis_index b + q) =
    vget (simulate (map (fun v => mat33 (getA3 (wi_T v) (wi_omega v) (wi_T v))) iv) (map (fun v => col3 (getB3 (wi_T v) (wi_omega v) (wi_T v))) iv) 1
      (mkVec N (moved_by Rhs steps Rs support c f (axis_index b))) (axis_of 2 3 (axis_index b) (1 * 3) cstate) k) q).
  { intros [|k'] b q Hk' Hq.
    - cbn [cstate_at simulate]. cbn [axis_of vget]. rewrite Nat.div_small, Nat.mod_small by lia. f_equal. lia.
    - cbn [cstate_at vget]. replace (S k') with (k' + 1)%nat by lia. rewrite <- (RS c f k' (axis_index b) q) by (try apply axis_lt; try assumption; lia).
      unfold p. cbn [wp_cstate vadd vget vec_of]. f_equal; f_equal; lia. }
  cbv zeta. split; [|split].
  - rewrite COPM by exact Hk. unfold moved_by, commanded_cop. rewrite made_sum by exact HO. rewrite turned_frame by lia.
    pose proof (Vc k AxisX Hk) as VX. pose proof (Vc k AxisY Hk) as VY. cbn [axis_index] in VX, VY. rewrite Nat.add_0_r in VX. rewrite VX, VY.
    rewrite (support_sum N Rs support sol f (steps_made steps k) a) by (try exact Vf; pose proof (steps_made_le steps k); lia). ring.
  - intros b. set (w := mkVec 2 (fun q => vget (wp_cop p) (2 * k + q))).
    destruct (walk_step (map (fun v => mat33 (getA3 (wi_T v) (wi_omega v) (wi_T v))) iv) (map (fun v => col3 (getB3 (wi_T v) (wi_omega v) (wi_T v))) iv)
      (mkVec N (moved_by Rhs steps Rs support c f (axis_index b))) (axis_of 2 3 (axis_index b) (1 * 3) cstate) k (wi_T v) (wi_height v) (cstate_at cstate p k) w b) as (W1 & W2 & W3).
    { exact (mat_at_map (fun v => mat33 (getA3 (wi_T v) (wi_omega v) (wi_T v))) iv k v Hv). }
    { exact (mat_at_map (fun v => col3 (getB3 (wi_T v) (wi_omega v) (wi_T v))) iv k v Hv). }
    { cbn [vget w]. symmetry. apply COPM. exact Hk. }
    { intros q Hq. apply STATE; lia. }
    rewrite W1, W2, W3. rewrite <- !STATE by lia. destruct b; repeat split.
  - intros k0 K. unfold p at 1. cbn [wp_dcop vadd vget vec_of]. replace (2 * k + axis_index a)%nat with (k * 2 + axis_index a)%nat by lia.
    rewrite RZ by (try apply axis_lt; assumption).
    set (w := mkVec 2 (fun q => vget (wp_cop p) (2 * k + q))).
    rewrite (rate_step _ _ _ _ k (wi_T v) (wi_height v) (cstate_at cstate p k) w a k0 Hh HT').
    + cbn [w vget]. replace (k * 2 + axis_index a)%nat with (2 * k + axis_index a)%nat by lia. reflexivity.
    + exact (mat_at_map (fun v => row3 (getD3 (wi_T v) (wi_omega v))) iv k v Hv).
    + exact (mat_at_map (fun v => mkMat 1 1 (fun _ _ => 1 / wi_T v)) iv k v Hv).
    + cbn [vget w]. symmetry. apply COPM. exact Hk.
    + intros q Hq. apply STATE; lia.
    + exact K.
Qed.
End Profiles.

Theorem walk_total : forall junk N iv Rhs steps Rs support cstate sol, formed_walk N iv Rhs steps Rs support cstate ->
  sol_structure sol = structure_wpg N (length steps) -> length (sol_x sol) = (2 * N + 2 * length steps)%nat ->
  exists M p, walk_solved junk N iv Rhs steps Rs support cstate sol M p /\
  (vlen (wp_cop p) = 2 * N /\ vlen (wp_dcop p) = 2 * N /\ vlen (wp_cstate p) = 6 * N /\ vlen (wp_footpos p) = 2 * length steps)%nat.
Proof.
  intros. destruct (walk_profiles_ok junk N iv Rhs steps Rs support cstate sol H H0 H1) as (M & p & E1 & E2 & L & _).
  exists M, p. split; [|exact L]. unfold walk_solved. auto.
Qed.

Ltac solved_profiles H :=
  let HF := fresh in let HS := fresh in let HX := fresh in let E1 := fresh in let E2 := fresh in let F1 := fresh in let F2 := fresh in let M' := fresh in let p' := fresh in
  destruct H as (HF & HS & HX & E1 & E2);
  match type of E1 with walk_update ?j _ _ _ _ _ _ _ = _ => destruct (walk_profiles_ok j _ _ _ _ _ _ _ _ HF HS HX) as (M' & p' & F1 & F2 & WL & WF & WK) end;
  rewrite E1 in F1; injection F1 as <-; rewrite E2 in F2; injection F2 as <-.

Theorem walk_cop : forall junk N iv Rhs steps Rs support cstate sol M p k a, walk_solved junk N iv Rhs steps Rs support cstate sol M p -> (k < N)%nat ->
  vget (wp_cop p) (2 * k + axis_index a) = commanded_cop N steps Rs Rhs support sol k a.
Proof.
  intros junk N iv Rhs steps Rs support cstate sol M p k a H Hk. assert (LI : length iv = N) by apply H.
  destruct (nth_error iv k) as [v|] eqn:Ev; [|apply nth_error_None in Ev; lia]. solved_profiles H. apply (WK k v a Ev).
Qed.
Theorem walk_footpos : forall junk N iv Rhs steps Rs support cstate sol M p j a, walk_solved junk N iv Rhs steps Rs support cstate sol M p -> (j < length steps)%nat ->
  vget (wp_footpos p) (2 * j + axis_index a) = support_after N Rs support sol (j + 1) a.
Proof. intros junk N iv Rhs steps Rs support cstate sol M p j a H Hj. solved_profiles H. apply WF. exact Hj. Qed.
Theorem walk_motion : forall junk N iv Rhs steps Rs support cstate sol M p k v, walk_solved junk N iv Rhs steps Rs support cstate sol M p -> nth_error iv k = Some v ->
  same_motion (state_of (cstate_at cstate p (k + 1)) (wi_height v))
    (evaluate (wi_T v) (wi_T v) (wi_height v) (cstate_at cstate p k) (mkVec 2 (fun q => vget (wp_cop p) (2 * k + q)))).
Proof. intros junk N iv Rhs steps Rs support cstate sol M p k v H Hv. solved_profiles H. apply (WK k v AxisX Hv). Qed.
Lemma formed_interval N iv Rhs steps Rs support cstate k v : formed_walk N iv Rhs steps Rs support cstate -> nth_error iv k = Some v -> (k < N)%nat /\ wi_T v <> 0 /\ 0 < wi_T v /\ 0 < wi_height v.
Proof.
  intros (HN & LI & _ & _ & _ & _ & HV & _) Hv. destruct (HV v (nth_error_In _ _ Hv)) as [HT Hh]. split; [rewrite <- LI; apply nth_error_Some; rewrite Hv; discriminate|].
  assert (0 < wi_T v). { unfold wi_T. assert (0 < INR (wi_T_ms v)) by (apply lt_0_INR; exact HT). lra. } repeat split; lra.
Qed.
Theorem walk_is_cop : forall junk N iv Rhs steps Rs support cstate sol M p k v a, walk_solved junk N iv Rhs steps Rs support cstate sol M p -> nth_error iv k = Some v ->
  is_cop (wi_height v) (state_of (cstate_at cstate p (k + 1)) (wi_height v)) a (commanded_cop N steps Rs Rhs support sol k a).
Proof.
  intros junk N iv Rhs steps Rs support cstate sol M p k v a H Hv. destruct (formed_interval _ _ _ _ _ _ _ _ _ (proj1 H) Hv) as (Hk & HT & _ & Hh).
  pose proof (walk_motion _ _ _ _ _ _ _ _ _ _ _ k v H Hv a) as (W1 & W2 & W3). rewrite <- (walk_cop _ _ _ _ _ _ _ _ _ _ _ k a H Hk).
  unfold is_cop. rewrite W1, W3. exact (cop_reached (wi_T v) (wi_height v) (cstate_at cstate p k) (mkVec 2 (fun q => vget (wp_cop p) (2 * k + q))) a Hh HT).
Qed.
Theorem walk_rate : forall junk N iv Rhs steps Rs support cstate sol M p k v a k0, walk_solved junk N iv Rhs steps Rs support cstate sol M p -> nth_error iv k = Some v ->
  is_cop (wi_height v) (state_of (cstate_at cstate p k) (wi_height v)) a k0 ->
  vget (wp_dcop p) (2 * k + axis_index a) = (commanded_cop N steps Rs Rhs support sol k a - k0) / wi_T v.
Proof.
  intros junk N iv Rhs steps Rs support cstate sol M p k v a k0 H Hv K. destruct (formed_interval _ _ _ _ _ _ _ _ _ (proj1 H) Hv) as (Hk & HT & _ & Hh).
  rewrite <- (walk_cop _ _ _ _ _ _ _ _ _ _ _ k a H Hk). solved_profiles H. apply (WK k v a Hv). exact K.
Qed.

(** ** the state at a time instant *)
Lemma vsegment_ok x first n : (first + n <= vlen x)%nat -> vsegment x first n = Ok (mkVec n (fun i => vget x (first + i))).
Proof. intros H. unfold vsegment. rewrite assert_true by (apply Nat.leb_le; exact H). reflexivity. Qed.
Lemma evaluate_ext Ts T h c c' w w' : vlen c = vlen c' -> (forall i, (i < 6)%nat -> vget c i = vget c' i) -> (forall i, (i < 2)%nat -> vget w i = vget w' i) ->
  evaluate Ts T h c w = evaluate Ts T h c' w'.
Proof.
  intros _ HC HW. unfold evaluate, convertCoMState_to_3d.
  assert (E : forall i, vget (vadd (mulv (getA6 Ts (getOmega h) T) c) (mulv (getB6 Ts (getOmega h) T) w)) i = vget (vadd (mulv (getA6 Ts (getOmega h) T) c') (mulv (getB6 Ts (getOmega h) T) w')) i).
  { intros i. cbn [vadd vget]. f_equal; apply mulv_ext; intros k Hk; [apply HC|apply HW]; exact Hk. }
  rewrite !E. reflexivity.
Qed.

Theorem com_state_inside : forall junk N iv Rhs steps Rs support cstate sol M p t, walk_solved junk N iv Rhs steps Rs support cstate sol M p ->
  (t <= list_sum (map wi_T_ms iv))%nat ->
  exists k v offset, nth_error iv k = Some v /\ t = (list_sum (map wi_T_ms (firstn k iv)) + offset)%nat /\ (offset <= wi_T_ms v)%nat /\ (k = 0 \/ 0 < offset)%nat /\
    getCoMState iv p cstate t =
      Ok (evaluate (INR offset / 1000) (wi_T v) (wi_height v) (cstate_at cstate p k) (mkVec 2 (fun q => commanded_cop N steps Rs Rhs support sol k (if (q =? 0)%nat then AxisX else AxisY)))).
Proof.
  intros junk N iv Rhs steps Rs support cstate sol M p t H Ht.
  assert (LI : length iv = N) by apply H. assert (HN : (0 < N)%nat) by exact (proj1 (proj1 H)).
  assert (NE : map wi_T_ms iv <> []) by (destruct iv; [cbn in LI; lia|discriminate]).
  destruct (lookup_ms_inside _ _ NE Ht) as (k & offset & E). destruct (lookup_ms_sound _ _ _ _ E) as (d & Ed & ET & Eo & Ek).
  rewrite nth_error_map in Ed. destruct (nth_error iv k) as [v|] eqn:Ev; [|discriminate]. injection Ed as <-.
  exists k, v, offset. split; [exact Ev|]. split; [rewrite <- firstn_map; exact ET|]. split; [exact Eo|]. split; [exact Ek|].
  destruct (formed_interval _ _ _ _ _ _ _ _ _ (proj1 H) Ev) as (Hk & _).
  unfold getCoMState. rewrite com_interval_is_lookup, E. cbn [bind fst snd]. unfold vec_at. rewrite Ev. cbn [bind].
  assert (EN : nth k (map wi_T_ms iv) 0%nat = wi_T_ms v) by (apply nth_error_nth; rewrite nth_error_map, Ev; reflexivity). rewrite EN. fold (wi_T v).
  assert (W : forall a, vget (wp_cop p) (2 * k + axis_index a) = commanded_cop N steps Rs Rhs support sol k a) by (intros a; exact (walk_cop _ _ _ _ _ _ _ _ _ _ _ k a H Hk)).
  destruct (walk_total junk N iv Rhs steps Rs support cstate sol) as (M' & p' & (_ & _ & _ & E1 & E2) & L1 & _ & L3 & _); [apply H|apply H|apply H|].
  destruct H as (_ & _ & _ & F1 & F2). rewrite E1 in F1. injection F1 as <-. rewrite E2 in F2. injection F2 as <-.
  assert (EW : forall i, (i < 2)%nat -> vget (wp_cop p') (k * 2 + i) = commanded_cop N steps Rs Rhs support sol k (if (i =? 0)%nat then AxisX else AxisY)).
  { intros [|[|i]] Hi; [rewrite <- W|rewrite <- W|lia]; cbn [Nat.eqb axis_index]; f_equal; lia. }
  destruct (Nat.eqb_spec k 0) as [->|Nk].
  - cbn [bind]. rewrite vsegment_ok by lia. cbn [bind cstate_at]. f_equal. apply evaluate_ext; [reflexivity|reflexivity|]. intros i Hi. cbn [vget]. apply EW. exact Hi.
  - rewrite !vsegment_ok by lia. cbn [bind]. f_equal. destruct k as [|k]; [lia|]. cbn [cstate_at]. apply evaluate_ext; [reflexivity| |].
    + intros i Hi. cbn [vget]. f_equal. lia.
    + intros i Hi. cbn [vget]. apply EW. exact Hi.
Qed.
Theorem com_state_outside : forall iv p cstate t, (list_sum (map wi_T_ms iv) < t)%nat -> getCoMState iv p cstate t = Throw.
Proof. intros iv p cstate t H. unfold getCoMState. rewrite com_interval_is_lookup, lookup_ms_outside by (left; exact H). reflexivity. Qed.
Lemma list_sum_app2 a b : list_sum (a ++ b) = (list_sum a + list_sum b)%nat.
Proof. induction a as [|x a IH]; cbn [app list_sum fold_right]; [reflexivity|]. unfold list_sum in *. cbn [fold_right]. lia. Qed.
Lemma firstn_snoc {A} (l : list A) k x : nth_error l k = Some x -> firstn (k + 1) l = firstn k l ++ [x].
Proof. revert k. induction l as [|y l IH]; intros [|k] H; try discriminate; [injection H as <-; reflexivity|]. cbn [nth_error] in H. cbn [Nat.add firstn app]. rewrite (IH k H). reflexivity. Qed.
Lemma sum_firstn_le l k : (list_sum (firstn k l) <= list_sum l)%nat.
Proof. rewrite <- (firstn_skipn k l) at 2. rewrite list_sum_app2. lia. Qed.
Lemma sum_firstn_mono l j k : (j <= k)%nat -> (list_sum (firstn j l) <= list_sum (firstn k l))%nat.
Proof. intros H. replace j with (Nat.min j k) by lia. rewrite <- firstn_firstn. apply sum_firstn_le. Qed.

(** at the end of an interval it is the predicted state, from which the next interval starts *)
Theorem com_state_ends : forall junk N iv Rhs steps Rs support cstate sol M p k v, walk_solved junk N iv Rhs steps Rs support cstate sol M p -> nth_error iv k = Some v ->
  exists s, getCoMState iv p cstate (list_sum (map wi_T_ms (firstn (k + 1) iv))) = Ok s /\ same_motion s (state_of (cstate_at cstate p (k + 1)) (wi_height v)).
Proof.
  intros junk N iv Rhs steps Rs support cstate sol M p k v H Hv. set (t := list_sum (map wi_T_ms (firstn (k + 1) iv))).
  assert (Ht : (t <= list_sum (map wi_T_ms iv))%nat) by (unfold t; rewrite <- firstn_map; apply sum_firstn_le).
  destruct (com_state_inside _ _ _ _ _ _ _ _ _ _ _ t H Ht) as (k' & v' & offset & Hv' & Et & Eo & Ek & E).
  assert (POS : forall w, In w iv -> (0 < wi_T_ms w)%nat) by (destruct H as (HF & _); intros w I; apply HF; exact I).
  assert (ST : forall j w, nth_error iv j = Some w -> list_sum (map wi_T_ms (firstn (j + 1) iv)) = (list_sum (map wi_T_ms (firstn j iv)) + wi_T_ms w)%nat).
  { intros j w Hw. rewrite (firstn_snoc _ _ _ Hw), map_app, list_sum_app2. cbn. lia. }
  assert (KK : k' = k).
  { unfold t in Et. destruct (Nat.lt_trichotomy k' k) as [L|[L|L]]; [exfalso|exact L|exfalso].
    - rewrite (ST k v Hv) in Et. pose proof (sum_firstn_mono (map wi_T_ms iv) (k' + 1) k ltac:(lia)) as Q. rewrite !firstn_map in Q. rewrite (ST k' v' Hv') in Q. pose proof (POS v (nth_error_In _ _ Hv)). lia.
    - pose proof (sum_firstn_mono (map wi_T_ms iv) (k + 1) k' ltac:(lia)) as Q. rewrite !firstn_map in Q. lia. }
  subst k'. rewrite Hv in Hv'. injection Hv' as <-. assert (O : offset = wi_T_ms v). { unfold t in Et. rewrite (ST k v Hv) in Et. lia. } subst offset.
  eexists. split; [exact E|]. fold (wi_T v). pose proof (walk_motion _ _ _ _ _ _ _ _ _ _ _ k v H Hv) as W.
  destruct (formed_interval _ _ _ _ _ _ _ _ _ (proj1 H) Hv) as (Hk & _).
  assert (EE : evaluate (wi_T v) (wi_T v) (wi_height v) (cstate_at cstate p k) (mkVec 2 (fun q => vget (wp_cop p) (2 * k + q))) =
    evaluate (wi_T v) (wi_T v) (wi_height v) (cstate_at cstate p k) (mkVec 2 (fun q => commanded_cop N steps Rs Rhs support sol k (if (q =? 0)%nat then AxisX else AxisY)))).
  { apply evaluate_ext; [reflexivity|reflexivity|]. intros [|[|i]] Hi; [| |lia]; cbn [vget Nat.eqb]; rewrite <- (walk_cop _ _ _ _ _ _ _ _ _ _ _ k _ H Hk); reflexivity. }
  rewrite <- EE. intros a. destruct (W a) as (W1 & W2 & W3). rewrite W1, W2, W3. auto.
Qed.
(** the next model state is the state at the subsampling time *)
Theorem next_state_is_com_state : forall junk N iv Rhs steps Rs support cstate sol M p t v, walk_solved junk N iv Rhs steps Rs support cstate sol M p ->
  nth_error iv 0 = Some v -> (t <= wi_T_ms v)%nat -> getCoMState iv p cstate t = next_com_state iv p cstate (INR t / 1000).
Proof.
  intros junk N iv Rhs steps Rs support cstate sol M p t v H Hv Ht. destruct iv as [|v0 iv]; [discriminate|]. injection Hv as ->.
  unfold getCoMState, next_com_state, com_interval. cbn [map com_lookup]. destruct (Nat.ltb_spec (wi_T_ms v) t); [lia|]. cbn [length Nat.ltb Nat.leb bind assert_then vec_at nth_error Nat.eqb Nat.mul].
  reflexivity.
Qed.
(** at the beginning it is the current state *)
Theorem com_state_start : forall junk N iv Rhs steps Rs support cstate sol M p v, walk_solved junk N iv Rhs steps Rs support cstate sol M p -> nth_error iv 0 = Some v ->
  exists s, getCoMState iv p cstate 0 = Ok s /\ same_motion s (state_of cstate (wi_height v)).
Proof.
  intros junk N iv Rhs steps Rs support cstate sol M p v H Hv.
  destruct (com_state_inside _ _ _ _ _ _ _ _ _ _ _ 0%nat H ltac:(lia)) as (k & v' & offset & Hv' & Et & Eo & Ek & E). assert (k = 0%nat) by lia. subst k. rewrite Hv in Hv'. injection Hv' as <-.
  assert (offset = 0%nat) by lia. subst offset. eexists. split; [exact E|]. destruct (formed_interval _ _ _ _ _ _ _ _ _ (proj1 H) Hv) as (_ & HT & _ & Hh).
  cbn [INR]. replace (0 / 1000) with 0 by lra. intros a. exact (evaluate_start (wi_T v) (wi_height v) (cstate_at cstate p 0) _ a Hh HT).
Qed.

(** a horizon of two intervals with a step at the beginning of the second one *)
Definition walk_example_iv : list walk_interval := [mkWI 100 1; mkWI 50 1].
Definition walk_example_sol : solution := mkSolution (structure_wpg 2 1) [1; 2; 3; 4; 10; 20].
Lemma walk_example : formed_walk 2 walk_example_iv [m2id; m2id] [1%nat] [m2id] (mkVec 2 (fun i => INR i)) (mkVec 6 (fun i => INR i)) /\
  sol_structure walk_example_sol = structure_wpg 2 1 /\ length (sol_x walk_example_sol) = 6%nat /\
  commanded_cop 2 [1%nat] [m2id] [m2id; m2id] (mkVec 2 (fun i => INR i)) walk_example_sol 0 AxisY = 3 /\
  commanded_cop 2 [1%nat] [m2id] [m2id; m2id] (mkVec 2 (fun i => INR i)) walk_example_sol 1 AxisY = 25 /\
  support_after 2 [m2id] (mkVec 2 (fun i => INR i)) walk_example_sol 1 AxisX = 10.
Proof.
  split; [|split; [reflexivity|split; [reflexivity|unfold commanded_cop, steps_made, walk_example_sol; cbn - [Rplus Rmult IZR]; repeat split; lra]]]. unfold formed_walk.
  split; [lia|]. split; [reflexivity|]. split; [reflexivity|]. split; [reflexivity|]. split; [reflexivity|]. split; [reflexivity|].
  split; [intros v [<-|[<-|[]]]; cbn; split; [lia|lra|lia|lra]|]. split; [intros s [<-|[]]; lia|]. repeat constructor.
Qed.
