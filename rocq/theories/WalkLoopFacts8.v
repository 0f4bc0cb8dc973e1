(** * The walking loop: solvers which obey the tasks; calls in any order *)
From Coq Require Import String List Reals Arith Bool Lra Lia Sorting.Sorted.
From Verif Require Import Base BaseFacts Matrix Mat2 Mat3 LeftRight FootParameters FootTrajectory PointMass6z PointMass6zSpec PointMass6zFacts Solution Constraints ConstraintsSpec Condense MpcGuess
  PepperTasksSpec StanceFSM StanceSpec StanceFSMFacts StanceFSMFacts2 StanceTimeFacts WalkPreview WalkPreviewSpec WalkPreviewFacts WalkPreviewFacts2 WalkHeadingFacts WalkPreviewFacts3
  WalkMpc WalkMpcFacts WalkProfiles WalkProfilesSpec WalkProfilesFacts WalkProfilesFacts2 WalkTasks WalkTasksSpec WalkTasksFacts2 WalkModel WalkModelSpec WalkModelFacts WalkLoop WalkLoopSpec WalkLoopFacts WalkLoopFacts2 WalkLoopFacts3 WalkLoopFacts4 WalkLoopFacts5 WalkLoopFacts6 WalkLoopFacts7.
Import ListNotations.
Local Open Scope nat_scope.

(** ** a solver which obeys the tasks: it returns the lower bounds *)
Definition axis_of (k : nat) : axis := if k mod 2 =? 0 then AxisX else AxisY.
Definition picked (nan : R) (fp : feet_params) (N : nat) (h : horizon) (k : nat) : R :=
  if k <? 2 * N then match state_bounds (indices_of h) (bounds_of nan fp h) (k / 2) with Some w => lower_bound (wb_cop w) (axis_of k) | None => 0%R end
  else match nth_error (h_steps h) ((k - 2 * N) / 2) with
       | Some i => match state_bounds (indices_of h) (bounds_of nan fp h) i with Some w => lower_bound (wb_fd w) (axis_of (k - 2 * N)) | None => 0%R end
       | None => 0%R end.
Definition pick (nan : R) (fp : feet_params) (N : nat) (h : horizon) : solution :=
  mkSolution (structure_wpg N (length (h_steps h))) (map (picked nan fp N h) (seq 0 (2 * N + 2 * length (h_steps h)))).
Lemma pick_at nan fp N h k : k < 2 * N + 2 * length (h_steps h) -> nth k (sol_x (pick nan fp N h)) 0%R = picked nan fp N h k.
Proof.
  intros L. cbn [pick sol_x]. rewrite nth_indep with (d' := picked nan fp N h 0) by (rewrite map_length, seq_length; exact L). rewrite map_nth, seq_nth by exact L. reflexivity.
Qed.
Lemma half_axis j a : (2 * j + axis_index a) / 2 = j /\ axis_of (2 * j + axis_index a) = a.
Proof.
  unfold axis_of. rewrite (Nat.mul_comm 2 j). rewrite Nat.div_add_l by lia. rewrite (Nat.add_comm (j * 2)), Nat.mod_add by lia. destruct a; cbn; split; try reflexivity; lia.
Qed.
Lemma pick_cop nan fp N h k a w : k < N -> state_bounds (indices_of h) (bounds_of nan fp h) k = Some w -> cop_local (pick nan fp N h) k a = lower_bound (wb_cop w) a.
Proof.
  intros L S. unfold cop_local. assert (axis_index a < 2) by (destruct a; cbn; lia). rewrite pick_at by lia. unfold picked. destruct (Nat.ltb_spec (2 * k + axis_index a) (2 * N)); [|lia].
  destruct (half_axis k a) as [-> ->]. rewrite S. reflexivity.
Qed.
Lemma pick_step nan fp N h j i a w : nth_error (h_steps h) j = Some i -> state_bounds (indices_of h) (bounds_of nan fp h) i = Some w -> step_local N (pick nan fp N h) j a = lower_bound (wb_fd w) a.
Proof.
  intros E S. unfold step_local. assert (axis_index a < 2) by (destruct a; cbn; lia). assert (j < length (h_steps h)) by (apply nth_error_Some; congruence).
  rewrite pick_at by lia. unfold picked. destruct (Nat.ltb_spec (2 * N + 2 * j + axis_index a) (2 * N)); [lia|].
  replace (2 * N + 2 * j + axis_index a - 2 * N) with (2 * j + axis_index a) by lia. destruct (half_axis j a) as [-> ->]. rewrite E, S. reflexivity.
Qed.
Lemma bounds_ordered nan pr h w a : sensible pr -> In w (bounds_of nan (finalize pr) h) -> (lower_bound (wb_cop w) a <= upper_bound (wb_cop w) a /\ lower_bound (wb_fd w) a <= upper_bound (wb_fd w) a)%R.
Proof.
  intros (S1 & S2 & S3 & S4 & S5) Hw. unfold bounds_of in Hw. apply in_map_iff in Hw. destruct Hw as (x & <- & _). cbn [wb_cop wb_fd]. split.
  - destruct (ws_cop x); destruct a; cbn; lra.
  - destruct (ws_fd x) as [|l k|]; [destruct a; cbn; lra| |destruct a; cbn; lra]. destruct l, k, a; cbn; lra.
Qed.
Lemma state_bounds_in index states k w : state_bounds index states k = Some w -> In w states.
Proof. unfold state_bounds. destruct (nth_error index k); [|discriminate]. apply nth_error_In. Qed.

Section Auto.
Variables (fuel : nat) (junk : nat -> nat -> nat -> R) (nan inc : R) (pr : primary) (s0 : wloop).
Definition chosen (x : wloop) : solution :=
  match wg_update fuel junk nan inc (wl_model x) (wl_fsm x) (wl_wpg x) with
  | Finished (Ok (true, g)) => pick nan (finalize pr) (horizon_length (wg_par g)) (wg_horizon g)
  | _ => mkSolution (structure_wpg 0 0) [] end.
Fixpoint auto (n : nat) : run (option wloop) :=
  match n with
  | O => Finished (Ok (Some s0))
  | S k => rbind (auto k) (fun o => match o with None => Finished (Ok None) | Some x => cycle fuel junk nan inc (finalize pr) (chosen x) x end)
  end.
Definition auto_sols (n : nat) : solution := match auto n with Finished (Ok (Some x)) => chosen x | _ => mkSolution (structure_wpg 0 0) [] end.
Lemma auto_after n : after fuel junk nan inc (finalize pr) auto_sols s0 n = auto n.
Proof.
  induction n as [|n IH]; [reflexivity|]. cbn [after auto]. rewrite IH. unfold auto_sols. destruct (auto n) as [[[x|]| |]|]; reflexivity.
Qed.
Lemma auto_answered : answered fuel junk nan inc (finalize pr) auto_sols s0.
Proof.
  intros k s g A U. rewrite auto_after in A. unfold auto_sols. rewrite A. unfold chosen. rewrite U. split; [reflexivity|]. cbn [pick sol_x]. rewrite map_length, seq_length. reflexivity.
Qed.
End Auto.

Theorem realizable : forall p s0, exists F, forall fuel junk nan inc pr, F <= fuel -> regular (wg_par (wl_wpg s0)) p -> started p s0 -> sensible pr ->
  exists sols, walking p s0 fuel junk nan inc pr sols /\ forall n s s', consecutive fuel junk nan inc (finalize pr) sols s0 n s s' ->
    obeys_cop nan (finalize pr) s' (sols n) /\ obeys_steps nan (finalize pr) s' (sols n).
Proof.
  intros p s0. exists (stances_left (wl_fsm s0) + 1). intros fuel junk nan inc pr FU Reg Sta Sen. exists (auto_sols fuel junk nan inc pr s0).
  assert (W : walking p s0 fuel junk nan inc pr (auto_sols fuel junk nan inc pr s0)) by (split; [exact Reg|]; split; [exact Sta|apply auto_answered]).
  split; [exact W|]. intros n s s' C. destruct (iteration p s0 fuel junk nan inc pr _ n s s' FU W C) as (I & I' & h & rs & M & pf & com & It & F & _ & _ & _ & _ & _ & G).
  set (mp := wg_par (wl_wpg s0)) in *.
  assert (E : auto_sols fuel junk nan inc pr s0 n = pick nan (finalize pr) (horizon_length mp) h).
  { destruct C as [C _]. rewrite auto_after in C. unfold auto_sols. rewrite C. unfold chosen.
    destruct It as (F' & Ro & Up & _). unfold wg_update. rewrite F'. cbn [rbind]. rewrite Ro. cbn [bind]. rewrite Up. cbn [bind wg_par wg_horizon]. rewrite (i_par _ _ _ _ _ _ _ I). reflexivity. }
  rewrite E. assert (Ix : indexed (horizon_length mp) (indices_of h) (bounds_of nan (finalize pr) h)) by (eapply form_indexed; exact F). destruct (form_filled _ _ _ _ _ _ _ F) as ((_ & _ & _ & Fo & _) & _). split.
  - destruct (task_cop_bounds_walk (horizon_length mp) (h_steps h) (pick nan (finalize pr) (horizon_length mp) h) (fun _ _ => 0%R) [] _ _ Ix) as (c & C1 & _ & C2).
    exists (fun _ _ => 0%R), [], c. rewrite G. cbn [wg_horizon wg_par]. split; [exact C1|]. apply C2. intros k w a S L. rewrite (pick_cop _ _ _ _ _ _ _ L S).
    destruct (bounds_ordered nan pr h w a Sen (state_bounds_in _ _ _ _ S)) as [B _]. split; [apply Rle_refl|exact B].
  - destruct (task_footsteps (horizon_length mp) (h_steps h) (pick nan (finalize pr) (horizon_length mp) h) (fun _ _ => 0%R) [] _ _ Ix) as (c & C1 & _ & C2); [intros x X; rewrite Forall_forall in Fo; exact (Fo x X)|].
    exists (fun _ _ => 0%R), [], c. rewrite G. cbn [wg_horizon wg_par]. split; [exact C1|]. apply C2. intros j k w a Hj S. rewrite (pick_step _ _ _ _ _ _ _ _ Hj S).
    destruct (bounds_ordered nan pr h w a Sen (state_bounds_in _ _ _ _ S)) as [_ B]. split; [apply Rle_refl|exact B].
Qed.

(** ** histories *)
Lemma snoc_split {A} (h1 h2 h : list A) e d : h1 ++ e :: h2 = h ++ [d] -> (h2 = [] /\ e = d /\ h1 = h) \/ (exists h3, h2 = h3 ++ [d] /\ h = h1 ++ e :: h3).
Proof.
  destruct h2 as [|y h2] using rev_ind; intros E.
  - apply app_inj_tail in E. destruct E as [-> ->]. left. auto.
  - right. replace (h1 ++ e :: h2 ++ [y]) with ((h1 ++ e :: h2) ++ [y]) in E by (rewrite <- app_assoc; reflexivity). apply app_inj_tail in E. destruct E as [<- <-]. exists h2. auto.
Qed.
Lemma parsed_snoc h c x : parsed_since (h ++ [(c, x)]) -> (parses c /\ x <> Failed) \/ (~ is_update c /\ parsed_since h).
Proof.
  intros (h1 & c' & x' & h2 & E & P & X & U). symmetry in E. apply snoc_split in E. destruct E as [(-> & Ee & _)|(h3 & -> & ->)].
  - injection Ee as -> ->. left. auto.
  - right. split; [apply (U c x); apply in_or_app; right; left; reflexivity|]. exists h1, c', x', h3. split; [reflexivity|]. split; [exact P|]. split; [exact X|].
    intros c1 x1 H1. apply (U c1 x1). apply in_or_app. left. exact H1.
Qed.
Lemma given_here h c x : (match c with CallParse _ => x <> Failed | CallNextOf _ _ _ => True | _ => False end) -> given_since (h ++ [(c, x)]).
Proof. intros H. exists h, c, x, []. split; [reflexivity|]. split; [exact H|]. intros c' x' []. Qed.
Lemma given_kept h c x : ~ is_update c -> given_since h -> given_since (h ++ [(c, x)]).
Proof.
  intros U (h1 & c' & x' & h2 & -> & P & N). exists h1, c', x', (h2 ++ [(c, x)]). split; [rewrite <- app_assoc; reflexivity|]. split; [exact P|].
  intros c1 x1 H. apply in_app_or in H. destruct H as [H|[H|[]]]; [apply (N c1 x1 H)|]. injection H as <- <-. exact U.
Qed.
Definition tracks (h : list (wg_call * wg_answer)) (g : wpg) : Prop := (parsed_since h -> wg_parsed g = true) /\ (wg_parsed g = true -> given_since h).
Lemma tracks_query h g c x : tracks h g -> ~ is_update c -> ~ parses c -> tracks (h ++ [(c, x)]) g.
Proof.
  intros [T1 T2] U P. split; [|intros H; apply given_kept; auto]. intros H. apply parsed_snoc in H. destruct H as [(H & _)|(_ & H)]; [contradiction|auto].
Qed.
Lemma do_next_of fuel junk nan fp w sol s m g : wg_do fuel junk nan fp w (CallNextOf sol s m) g =
  if wg_parsed g then (Failed, g)
  else match wg_parse (junk 13%nat) sol g with
    | Ok g' => reply (wg_initialize fp s m g') (fun x => (Next x, g')) g'
    | _ => (Failed, failed_parse w g)
    end.
Proof.
  cbn [wg_do]. unfold wg_next_of. destruct (wg_parsed g); cbn [negb assert_then reply]; [reflexivity|].
  destruct (wg_parse (junk 13%nat) sol g) as [g'| |]; cbn [bind reply]; [|reflexivity|reflexivity]. destruct (wg_initialize fp s m g'); reflexivity.
Qed.
Lemma tracks_step fuel junk nan fp w c g h : tracks h g -> let (x, g') := wg_do fuel junk nan fp w c g in
  tracks (h ++ [(c, x)]) g' /\ (needs_parsed c -> x <> Failed -> given_since h) /\ ((exists sol s m, c = CallNextOf sol s m) -> x <> Failed -> ~ parsed_since h).
Proof.
  intros (T1 & T2). destruct c as [p|i m s|sol|sol s m|s m|m|m t]; [| | |rewrite do_next_of| | |]; cbn [wg_do].
  - split; [|split; [intros []|intros (? & ? & ? & D); discriminate]]. apply tracks_query; [split; assumption|intros []|intros []].
  - destruct (wg_update fuel junk nan i m s g) as [[[b u]| |]|] eqn:E; cbn [fst snd]; (split; [|split; [intros []|intros (? & ? & ? & D); discriminate]]); split; cbn [wg_parsed failed_update]; try discriminate.
    all: try (intros H; apply parsed_snoc in H; destruct H as [([] & _)|(H & _)]; exfalso; apply H; exact I).
    intros H. exfalso. unfold wg_update in E. apply rbind_ok in E. destruct E as ([h'|] & _ & E).
    + injection E as E. apply bind_ok in E. destruct E as (rs & _ & E). apply bind_ok in E. destruct E as (M & _ & E). injection E as _ <-. discriminate H.
    + injection E as _ <-. discriminate H.
  - unfold wg_parse. destruct (walk_parse _ _ _) as [q| |]; cbn [bind reply]; (split; [|split; [intros []|intros (? & ? & ? & D); discriminate]]); split; cbn [wg_parsed failed_parse].
    + reflexivity.
    + intros _. apply given_here. discriminate.
    + intros H. apply parsed_snoc in H. destruct H as [(_ & H)|(_ & H)]; [congruence|exact (T1 H)].
    + intros H. apply given_kept; [intros []|exact (T2 H)].
    + intros H. apply parsed_snoc in H. destruct H as [(_ & H)|(_ & H)]; [congruence|exact (T1 H)].
    + intros H. apply given_kept; [intros []|exact (T2 H)].
  - destruct (wg_parsed g) eqn:EP.
    + split; [|split; [intros []|intros _ H; congruence]]. split; [intros _; exact EP|]. intros _. apply given_here. exact I.
    + assert (NP : ~ parsed_since h) by (intros H; apply T1 in H; congruence).
      unfold wg_parse. destruct (walk_parse _ _ _) as [q| |]; cbn [bind].
      * match goal with |- context [reply ?o] => destruct o as [x| |] end; cbn [reply]; (split; [|split; [intros []|intros _ _; exact NP]]); split; cbn [wg_parsed]; try reflexivity; intros _; apply given_here; exact I.
      * split; [|split; [intros []|intros _ H; congruence]]. split; [intros H; apply parsed_snoc in H; destruct H as [(_ & H)|(_ & H)]; [congruence|contradiction]|intros _; apply given_here; exact I].
      * split; [|split; [intros []|intros _ H; congruence]]. split; [intros H; apply parsed_snoc in H; destruct H as [(_ & H)|(_ & H)]; [congruence|contradiction]|intros _; apply given_here; exact I].
  - assert (Q : forall x, tracks (h ++ [(CallNext s m, x)]) g) by (intros x; apply tracks_query; [split; assumption|intros []|intros []]).
    unfold wg_next. destruct (wg_parsed g) eqn:EP; cbn [assert_then].
    + destruct (wg_initialize _ _ _ _) as [x| |]; cbn [reply]; (split; [apply Q|split; [intros _ _; exact (T2 eq_refl)|intros (? & ? & ? & D); discriminate]]).
    + cbn [reply]. split; [apply Q|split; [intros _ H; congruence|intros (? & ? & ? & D); discriminate]].
  - assert (Q : forall x, tracks (h ++ [(CallLanding m, x)]) g) by (intros x; apply tracks_query; [split; assumption|intros []|intros []]).
    unfold wg_landing. destruct (wg_parsed g) eqn:EP; cbn [assert_then].
    + match goal with |- context [reply ?o] => destruct o as [x| |] end; cbn [reply]; (split; [apply Q|split; [intros _ _; exact (T2 eq_refl)|intros (? & ? & ? & D); discriminate]]).
    + cbn [reply]. split; [apply Q|split; [intros _ H; congruence|intros (? & ? & ? & D); discriminate]].
  - assert (Q : forall x, tracks (h ++ [(CallCoM m t, x)]) g) by (intros x; apply tracks_query; [split; assumption|intros []|intros []]).
    unfold wg_com. destruct (wg_parsed g) eqn:EP; cbn [assert_then].
    + match goal with |- context [reply ?o] => destruct o as [x| |] end; cbn [reply]; (split; [apply Q|split; [intros _ _; exact (T2 eq_refl)|intros (? & ? & ? & D); discriminate]]).
    + cbn [reply]. split; [apply Q|split; [intros _ H; congruence|intros (? & ? & ? & D); discriminate]].
Qed.
Lemma tracks_run fuel junk nan fp W : forall cs k g h0 h g', tracks h0 g -> wg_run fuel junk nan fp W k cs g = (h, g') ->
  forall h1 c x h2, h = h1 ++ (c, x) :: h2 -> x <> Failed -> (needs_parsed c -> given_since (h0 ++ h1)) /\ ((exists sol s m, c = CallNextOf sol s m) -> ~ parsed_since (h0 ++ h1)).
Proof.
  induction cs as [|c cs IH]; intros k g h0 h g' T E h1 c' x' h2 EH NF; cbn [wg_run] in E.
  - injection E as <- <-. destruct h1; discriminate.
  - pose proof (tracks_step fuel junk nan fp (W k) c g h0 T) as ST. destruct (wg_do fuel junk nan fp (W k) c g) as [x g1] eqn:E1. destruct ST as (T' & S1 & S2).
    destruct (wg_run fuel junk nan fp W (S k) cs g1) as [l g2] eqn:E2. injection E as <- <-. destruct h1 as [|e h1].
    + cbn in EH. injection EH as -> -> ->. rewrite app_nil_r. split; [intros H; exact (S1 H NF)|intros H; exact (S2 H NF)].
    + cbn in EH. injection EH as <- EH. destruct (IH (S k) g1 (h0 ++ [(c, x)]) l g2 T' E2 h1 c' x' h2 EH NF) as (R1 & R2). rewrite <- app_assoc in R1, R2. split; assumption.
Qed.
Theorem guarded (fuel : nat) (junk : nat -> nat -> nat -> R) (nan : R) (fp : feet_params) (W : nat -> undetermined) (p : mpc_params) (calls : list wg_call) (h : list (wg_call * wg_answer)) (g : wpg) :
  wg_run fuel junk nan fp W 0 calls (wg_new p) = (h, g) ->
  forall h1 c x h2, h = h1 ++ (c, x) :: h2 -> x <> Failed -> (needs_parsed c -> given_since h1) /\ ((exists sol s m, c = CallNextOf sol s m) -> ~ parsed_since h1).
Proof.
  intros E h1 c x h2 EH NF. apply (tracks_run fuel junk nan fp W calls 0 (wg_new p) [] h g) with (x := x) (h2 := h2); [|exact E|exact EH|exact NF].
  split; [|discriminate]. intros (h3 & c' & x' & h4 & D & _). destruct h3; discriminate.
Qed.
(** after an update which returned OK: the two ways to the next state agree; before a solution is given nothing is answered *)
Theorem same_answer (fuel : nat) (junk : nat -> nat -> nat -> R) (nan inc : R) (fp : feet_params) (m : wpg_model) (s : fsm) (g g1 g2 : wpg) (sol : solution) :
  wg_update fuel junk nan inc m s g = Finished (Ok (true, g1)) -> wg_parse (junk 13) sol g1 = Ok g2 ->
  (forall s' m' x, wg_next fp s' m' g2 = Ok x <-> wg_next_of (junk 13) fp sol s' m' g1 = Ok (x, g2)) /\
  (forall sol' s' m', wg_next_of (junk 13) fp sol' s' m' g2 = Throw) /\
  (forall s' m', wg_next fp s' m' g1 = Throw) /\ (forall m', wg_landing fp m' g1 = Throw) /\ (forall m' t, wg_com m' t g1 = Throw).
Proof.
  intros U P. destruct (update_inv _ _ _ _ _ _ _ _ U) as (h & rs & M & _ & _ & _ & ->).
  assert (P2 : wg_parsed g2 = true). { unfold wg_parse in P. apply bind_ok in P. destruct P as (q & _ & P). injection P as <-. reflexivity. }
  split; [|split; [|split; [|split]]].
  - intros s' m' x. unfold wg_next, wg_next_of. rewrite P2. cbn [wg_parsed negb assert_then]. rewrite P. cbn [bind]. destruct (wg_initialize fp s' m' g2) as [y| |]; cbn [bind]; split; congruence.
  - intros. unfold wg_next_of. rewrite P2. reflexivity.
  - reflexivity.
  - reflexivity.
  - reflexivity.
Qed.
