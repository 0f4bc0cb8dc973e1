(** * Properties C19-C23: stance state machine. Vocabulary in StanceSpec.v. *)
From Coq Require Import List Arith Lia Bool.
From Verif Require Import Base StanceFSM StanceSpec StanceFSMFacts StanceTimeFacts StanceFSMFacts2.
Import ListNotations.

(** C19. Every single support is followed by a transitional double support, is the
    first stance or preceded by one, and the next single support uses the other foot. *)
Theorem C19_alternation :
  forall (p : params) (s : fsm) (i : nat) (t : stance_type),
  init p = Ok s -> type_at s i t -> is_ss t = true ->
  type_at s (S i) TDS /\
  (i = 0 \/ exists j, i = S j /\ type_at s j TDS) /\
  (forall t', type_at s (S (S i)) t' -> is_ss t' = true -> t' = opp t).
Proof. exact alternation. Qed.
Print Assumptions C19_alternation.

(** C19. Any mix of stance and time shifts only visits stances of that sequence. *)
Theorem C19_executions_follow_sequence :
  forall (s s' : fsm), reach s s' ->
  exists k s'', shifts k s = Ok s'' /\ cur s' = cur s'' /\
                ss_left s' = ss_left s'' /\ fparams s' = fparams s''.
Proof. exact reach_is_shifts. Qed.
Print Assumptions C19_executions_follow_sequence.

(** C19. History fields, durations and flags after a step. *)
Theorem C19_step_bookkeeping :
  forall (s s' : fsm), shiftStance s = Ok s' ->
  fparams s' = fparams s /\ cur_time s' = 0 /\
  getDuration (fparams s) (st_type (cur s')) = Ok (duration (cur s')) /\
  prev_nontds (cur s') = (if is_tds (st_type (cur s)) then prev_nontds (cur s) else st_type (cur s)) /\
  prev_nonds (cur s') = (if is_ss (st_type (cur s)) then st_type (cur s) else prev_nonds (cur s)) /\
  (subtype (cur s') = LAST <-> st_type (cur s) = TDS /\ st_type (cur s') = DS) /\
  subtype (cur s') <> FIRST /\
  (is_tds_started s' = false <-> st_type (cur s) = TDS).
Proof. exact step_bookkeeping. Qed.
Print Assumptions C19_step_bookkeeping.

Theorem C19_durations_are_configured :
  forall (p : params) (s : fsm) (i : nat) (s' : fsm),
  init p = Ok s -> shifts (S i) s = Ok s' ->
  cur_time s' = 0 /\
  duration (cur s') = match st_type (cur s') with
                      | DS => last_duration p | TDS => tds_duration p | _ => ss_duration p end.
Proof. exact durations_configured. Qed.
Print Assumptions C19_durations_are_configured.

(** C19. Which parameters are accepted. *)
Theorem C19_accepted_parameters :
  forall p : params,
  (exists s, init p = Ok s) <->
  num_steps p <> 1 /\
  (is_ss (first_stance p) = true \/
   first_stance p = DS /\ (is_ss (first_ss_type p) = true \/ first_ss_type p = ST_UNDEFINED)).
Proof. exact init_accepts. Qed.
Print Assumptions C19_accepted_parameters.

Example C19_case : exists s, init default_params = Ok s /\ type_at s 4 LSS /\ type_at s 2 RSS.
Proof.
  eexists; split; [reflexivity|]. split; eexists; (split; [reflexivity|reflexivity]).
Qed.

(** C20. Starting in double support: exactly [num_steps] single supports, then DS forever. *)
Theorem C20_exact_number_of_steps :
  forall (p : params) (s : fsm) (n : nat),
  init p = Ok s -> first_stance p = DS -> is_ss (first_ss_type p) = true ->
  num_steps p = n -> n <> 0 ->
  exists ty : nat -> stance_type,
    (forall i, type_at s i (ty i)) /\
    ty 0 = DS /\ ty 1 = TDS /\ ty 2 = first_ss_type p /\
    (forall m, 2 * n + 1 <= m -> length (filter is_ss (map ty (seq 0 m))) = n) /\
    (forall i, 2 * n + 2 <= i -> ty i = DS).
Proof. exact exact_steps_ds. Qed.
Print Assumptions C20_exact_number_of_steps.

(** C20. Starting in single support: that one and [num_steps] more. *)
Theorem C20_exact_number_of_steps_from_ss :
  forall (p : params) (s : fsm) (n : nat),
  init p = Ok s -> is_ss (first_stance p) = true -> num_steps p = n ->
  exists ty : nat -> stance_type,
    (forall i, type_at s i (ty i)) /\
    ty 0 = first_stance p /\
    (forall m, 2 * n + 1 <= m -> length (filter is_ss (map ty (seq 0 m))) = S n) /\
    (forall i, 2 * n + 2 <= i -> ty i = DS).
Proof. exact exact_steps_ss. Qed.
Print Assumptions C20_exact_number_of_steps_from_ss.

Theorem C20_terminal_is_absorbing :
  forall s s' : fsm, st_type (cur s) = DS -> ss_left s = 0 -> reach s s' ->
  st_type (cur s') = DS /\ ss_left s' = 0.
Proof. exact terminal_absorbing. Qed.
Print Assumptions C20_terminal_is_absorbing.

(** C20. Finding: with an undefined first foot the number of steps is meant to be
    zero, but the counter keeps the old value and the machine fails at the second step. *)
Theorem C20_undefined_foot_refuted :
  forall (p : params) (s : fsm),
  init p = Ok s -> first_stance p = DS -> first_ss_type p = ST_UNDEFINED -> num_steps p <> 0 ->
  num_steps (fparams s) = 0 /\ shifts 2 s = Throw.
Proof.
  intros p s H H1 H2 H3. split; [|exact (walk_undefined_foot_throws p s H H1 H2 H3)].
  unfold init in H. destruct (negb _); [|discriminate]. simpl in H. rewrite H1, H2 in H.
  inversion H; reflexivity.
Qed.
Print Assumptions C20_undefined_foot_refuted.

Example C20_case_undefined_foot :
  exists s, init (mkParams DS ST_UNDEFINED DS 7 1 3 9 2) = Ok s /\ shifts 2 s = Throw.
Proof. eexists; split; reflexivity. Qed.

(** C21. Shifting by [a] and then by [b] gives the state reached by shifting by [a + b];
    more generally for any slicing of a time interval, in both directions. *)
Theorem C21_time_shifts_compose :
  forall (f1 f2 : nat) (s : fsm) (a b : nat) (s1 : fsm) (r : outcome fsm),
  shiftTime f1 s a = Finished (Ok s1) -> shiftTime f2 s1 b = Finished r ->
  shiftTime (f1 + f2) s (a + b) = Finished r.
Proof. intros f1; exact (shiftTime_compose f1). Qed.
Print Assumptions C21_time_shifts_compose.

Theorem C21_slicing_is_irrelevant :
  forall (ts : list nat) (s s' : fsm),
  (exists fuel, shiftTimes fuel s ts = Finished (Ok s')) <->
  (exists fuel, shiftTime fuel s (list_sum ts) = Finished (Ok s')).
Proof.
  intros ts s s'; split; intros [f H].
  - exact (shiftTimes_sum f ts s s' H).
  - exact (shiftTimes_sum_conv ts s s' f H).
Qed.
Print Assumptions C21_slicing_is_irrelevant.

(** The result does not depend on the fuel. *)
Theorem C21_shiftTime_deterministic :
  forall (f g : nat) (s : fsm) (t : nat) (r q : outcome fsm),
  shiftTime f s t = Finished r -> shiftTime g s t = Finished q -> r = q.
Proof. exact shiftTime_det. Qed.
Print Assumptions C21_shiftTime_deterministic.

Example C21_case :
  let p := mkParams DS RSS DS 7 2 3 9 2 in
  exists s s1 s2, init p = Ok s /\ shiftTime 5 s 4 = Finished (Ok s1) /\
    shiftTime 5 s1 6 = Finished (Ok s2) /\ shiftTime 9 s 10 = Finished (Ok s2) /\
    st_type (cur s2) = RSS /\ cur_time s2 = 5.
Proof. do 3 eexists. repeat split; reflexivity. Qed.

(** C22. The preview lists stances the machine will go through: the i-th entry is the
    i-th stance; the machine shifted by any time covered by entry i is in that stance and
    has spent the expected time in it; the listed durations add up to the requested
    duration (and the list does not end with a TDS), or the terminal double support is
    reached, which is too short for the rest and is not listed. *)
Theorem C22_preview_predicts :
  forall (f : nat) (s : fsm) (T : nat) (l : list stance),
  wf s -> pos_durations (fparams s) -> cur_time s < duration (cur s) -> T > 0 ->
  previewStances f s T = Finished (Ok l) ->
  (forall i e, nth_error l i = Some e -> exists si, shifts i s = Ok si /\ same_kind e si) /\
  (forall i e t, nth_error l i = Some e -> psum l i <= t < psum l (S i) ->
     exists g s1, shiftTime g s t = Finished (Ok s1) /\ same_stance e s1 /\
       cur_time s1 = (if i =? 0 then cur_time s else 0) + (t - psum l i)) /\
  ( psum l (length l) = T /\ (exists e l', l = l' ++ [e] /\ st_type e <> TDS)
    \/
    psum l (length l) < T /\ exists s', shifts (length l) s = Ok s' /\ terminal s' /\
        duration (cur s') - cur_time s' < T - psum l (length l)).
Proof. exact preview_correct. Qed.
Print Assumptions C22_preview_predicts.

(** C22. The preview always succeeds for a positive duration ... *)
Theorem C22_preview_succeeds :
  forall (s : fsm) (T : nat), wf s -> T > 0 -> exists f l, previewStances f s T = Finished (Ok l).
Proof. exact preview_defined. Qed.
Print Assumptions C22_preview_succeeds.

(** ... and a preview of zero milliseconds reads back() of an empty vector. *)
Theorem C22_preview_zero_refuted :
  forall (f : nat) (s : fsm), previewStances f s 0 = Finished UB.
Proof. exact preview_zero. Qed.
Print Assumptions C22_preview_zero_refuted.

Theorem C22_accepted_states_are_well_formed :
  forall (p : params) (s : fsm), init p = Ok s ->
  (first_stance p = DS -> num_steps p = 0 \/ first_ss_type p <> ST_UNDEFINED) -> wf s.
Proof. exact wf_init. Qed.
Print Assumptions C22_accepted_states_are_well_formed.

Example C22_case :
  exists s l, init (mkParams DS RSS DS 7 2 3 9 2) = Ok s /\
    previewStances 9 s 5 = Finished (Ok l) /\
    map st_type l = [DS; TDS; RSS] /\ map duration l = [3; 2; 0] /\
    wf s /\ pos_durations (fparams s) /\ cur_time s < duration (cur s).
Proof.
  do 2 eexists. split; [reflexivity|]. split; [reflexivity|]. repeat split; simpl; auto; lia.
Qed.

(** C23. shiftTime terminates whenever the final double support has positive duration,
    and from well-formed states it succeeds and leaves a well-formed state. *)
Theorem C23_shiftTime_terminates :
  forall (s : fsm) (t : nat), last_duration (fparams s) > 0 -> wf s ->
  exists fuel s', shiftTime fuel s t = Finished (Ok s') /\ wf s' /\ fparams s' = fparams s.
Proof.
  intros s t H W.
  destruct (shiftTime_terminates _ s t H (le_n _)) as [r E].
  destruct (wf_shiftTime _ _ _ _ W E) as (s' & -> & W' & P).
  eexists; exists s'; split; [exact E|auto].
Qed.
Print Assumptions C23_shiftTime_terminates.

(** C23. With zero duration of the final double support every sufficiently long shift
    runs forever. *)
Theorem C23_shiftTime_diverges :
  forall s : fsm, wf s -> last_duration (fparams s) = 0 ->
  exists T, forall t fuel, t > T -> shiftTime fuel s t = NoFuel.
Proof. intros s W H. exact (shiftTime_diverges_gen (stances_left s) s W H (le_n _)). Qed.
Print Assumptions C23_shiftTime_diverges.

Theorem C23_diverges_in_final_double_support :
  forall (fuel : nat) (s : fsm) (t : nat),
  st_type (cur s) = DS -> ss_left s = 0 -> last_duration (fparams s) = 0 ->
  cur_time s <= duration (cur s) -> t > duration (cur s) - cur_time s ->
  shiftTime fuel s t = NoFuel.
Proof. exact shiftTime_diverges_terminal. Qed.
Print Assumptions C23_diverges_in_final_double_support.

Example C23_case :
  exists s, init (mkParams DS RSS DS 7 1 3 0 0) = Ok s /\ wf s /\ shiftTime 100 s 4 = NoFuel.
Proof. eexists; split; [reflexivity|]. split; [split; simpl; auto; lia|reflexivity]. Qed.
