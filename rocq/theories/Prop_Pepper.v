(** * Properties C57 (motion queue), C58 (preview horizon of Pepper), C59 (lookup of time instants), C61 (solution guess) *)
From Coq Require Import String List Arith ZArith Lia Reals Lra Bool.
From Verif Require Import Base Mat2 Solution PepperPreview PepperPreviewSpec PepperPreviewFacts PepperFormFacts MpcGuess MpcGuessSpec MpcGuessFacts.
Import ListNotations.

(** ** C57: after a shift by t everything that was commanded at t + u is commanded at u *)
Theorem C57_time_line : forall T t q u,
  valid_queue q -> (0 <= t)%Z -> (0 <= u)%Z -> commanded (shift_queue T t q) u = commanded q (t + u).
Proof. exact shift_timeline. Qed.
Theorem C57_time_line_default : forall T q u,
  valid_queue q -> (0 <= T)%Z -> (0 <= u)%Z -> commanded (shift_queue T (-1) q) u = commanded q (T + u).
Proof. exact shift_timeline_default. Qed.
(** exactly t milliseconds are removed from the front: nothing is left, or some motions at the front are gone, the next one is
    shortened (or unlimited and unchanged) and the rest is kept *)
Theorem C57_rest : forall T t q,
  valid_queue q -> (0 <= t)%Z ->
  (shift_queue T t q = [] /\ ~ endless q /\ (total q <= t)%Z) \/
  exists removed m rest d, q = removed ++ m :: rest /\ ~ endless removed /\ shift_queue T t q = set_duration m d :: rest /\
    ((mo_duration m = (-1)%Z /\ d = (-1)%Z /\ (total removed <= t)%Z) \/
     (mo_duration m <> (-1)%Z /\ (0 < d <= mo_duration m)%Z /\ (total removed + (mo_duration m - d) = t)%Z)).
Proof. exact shift_rest. Qed.
Theorem C57_total : forall T t q,
  valid_queue q -> ~ endless q -> (0 <= t)%Z -> total (shift_queue T t q) = Z.max 0 (total q - t).
Proof. exact shift_total. Qed.
Theorem C57_valid : forall T t q,
  valid_queue q -> (0 <= t)%Z -> valid_queue (shift_queue T t q).
Proof. exact shift_valid. Qed.
Theorem C57_endless : forall T t q,
  valid_queue q -> (0 <= t)%Z -> endless q <-> endless (shift_queue T t q).
Proof. exact shift_endless. Qed.
(** the version for one motion *)
Theorem C57_single : forall T t m u,
  valid_duration m -> (0 <= t)%Z -> (0 <= u)%Z ->
  commanded [shift_single T t m] u = commanded [m] (t + u).
Proof. exact shift_single_timeline. Qed.
Theorem C57_single_command : forall T t m,
  command_of (shift_single T t m) = command_of m.
Proof. exact shift_single_command. Qed.
Theorem C57_single_duration : forall T t m,
  valid_duration m -> (0 <= t)%Z ->
  mo_duration (shift_single T t m) = if Z.eq_dec (mo_duration m) (-1) then (-1)%Z else Z.max 0 (mo_duration m - t).
Proof. exact shift_single_duration. Qed.
(** update and shift: a queue that is too short is left alone *)
Theorem C57_update_and_shift : forall p model t q l,
  proper p -> valid_queue q -> (0 <= t)%Z ->
  exists b l' q', updateAndShift_queue p model t q l = Ok (b, l', q') /\
    (b = true <-> (endless q \/ (Z.of_nat (horizon_length p) * sampling_ms p <= total q)%Z)) /\
    (b = false -> q' = q) /\ (b = true -> forall u, (0 <= u)%Z -> commanded q' u = commanded q (t + u)).
Proof. exact update_and_shift. Qed.

Definition forward (d : Z) : motion := mkMotion (V2 1 0) v2zero 0 d.
Definition turn (d : Z) : motion := mkMotion v2zero v2zero 1 d.
Example C57_example : valid_queue [forward 250; turn 100; forward (-1)] /\
  shift_queue 100 300 [forward 250; turn 100; forward (-1)] = [turn 50; forward (-1)] /\
  shift_queue 100 (-1) [forward 250; turn 100] = [forward 150; turn 100] /\
  shift_queue 100 500 [forward 250; turn 100] = [] /\
  shift_single 100 300 (forward 250) = forward 0.
Proof. split; [repeat (apply Forall_cons; [unfold valid_duration; cbn; lia|]); constructor|]. repeat split; reflexivity. Qed.

(** ** C58 *)
(** formed exactly when the motions last long enough *)
Theorem C58_formed : forall p model q l,
  proper p -> valid_queue q ->
  exists b l', form_queue p model q l = Ok (b, l') /\ length l' = horizon_length p /\
    (b = true <-> (endless q \/ (Z.of_nat (horizon_length p) * sampling_ms p <= total q)%Z)).
Proof. exact form_queue_defined. Qed.
(** interval i uses the motion which is executed in its last millisecond; the orientation accumulates *)
Theorem C58_intervals : forall p model q l l',
  proper p -> valid_queue q -> form_queue p model q l = Ok (true, l') ->
  exists theta : nat -> R, theta 0%nat = view_theta model /\ length l' = horizon_length p /\
  forall i, (i < horizon_length p)%nat -> exists v m, nth_error l' i = Some v /\
    executed q (Z.of_nat (i + 1) * sampling_ms p - 1) = Some m /\ follows p model v m (theta i) /\ in_theta v = theta (S i).
Proof. exact form_queue_intervals. Qed.
Theorem C58_single_agrees : forall p model m l l0,
  proper p -> valid_duration m ->
  (forall l', form_single p model m l = Ok (true, l') <-> form_queue p model [m] l = Ok (true, l')) /\
  (form_single p model m l = Ok (false, l) <-> exists l', form_queue p model [m] l0 = Ok (false, l')).
Proof. exact form_single_agrees. Qed.
(** after a shift by one sampling period interval i commands what interval i + 1 commanded *)
Theorem C58_receding : forall p q i,
  proper p -> valid_queue q ->
  commanded (shift_queue (sampling_ms p) (-1) q) (Z.of_nat (i + 1) * sampling_ms p - 1) = commanded q (Z.of_nat (S i + 1) * sampling_ms p - 1).
Proof. exact receding. Qed.
(** outside of the valid durations the two versions do not agree *)
Theorem C58_negative_duration_refuted : forall p model d l,
  proper p -> (- 2 ^ 63 <= d < -1)%Z -> (Z.of_nat (horizon_length p) * sampling_ms p <= 2 ^ 63)%Z ->
  let m := mkMotion v2zero v2zero 0 d in
  form_single p model m l = Ok (false, l) /\ exists l', form_queue p model [m] l = Ok (true, l').
Proof. exact negative_duration. Qed.
Definition two_periods : mpc_parameters := mkParams 3 100.
Definition still : pepper_view := mkView m2id m2id m2id m2id (1/10) (3/4) 16 12 0.
Example C58_example : proper two_periods /\ valid_queue [forward 150; turn 200] /\
  (exists a b c, form_queue two_periods still [forward 150; turn 200] [] = Ok (true, [a; b; c]) /\
     in_theta a = (0 + 0 * (100 / 1000))%R /\ in_theta b = (in_theta a + 1 * (100 / 1000))%R) /\
  (exists l, form_queue two_periods still [forward 150; turn 149] [] = Ok (false, l)).
Proof.
  split; [split; cbn; lia|]. split; [repeat (apply Forall_cons; [unfold valid_duration; cbn; lia|]); constructor|]. split.
  - do 3 eexists. split; [reflexivity|]. split; reflexivity.
  - eexists. reflexivity.
Qed.

(** ** C59 *)
Theorem C59_sound : forall ds off i r,
  getIntervalIndexByTimeOffset_ms ds off = Ok (i, r) ->
  exists d, nth_error ds i = Some d /\ off = (sum_before ds i + r)%nat /\ (r <= d)%nat /\ (i = 0 \/ 0 < r)%nat.
Proof. exact lookup_ms_sound. Qed.
Theorem C59_inside : forall ds off,
  ds <> [] -> (off <= list_sum ds)%nat -> exists i r, getIntervalIndexByTimeOffset_ms ds off = Ok (i, r).
Proof. exact lookup_ms_inside. Qed.
Theorem C59_outside : forall ds off,
  (list_sum ds < off)%nat \/ ds = [] -> getIntervalIndexByTimeOffset_ms ds off = Throw.
Proof. exact lookup_ms_outside. Qed.
(** the version in seconds *)
Theorem C59_seconds_sound : forall ds off i r,
  getIntervalIndexByTimeOffset_s ds off = Ok (i, r) ->
  exists d, nth_error ds i = Some d /\ off = (sum_before_s ds i + r)%R /\ (r <= d)%R /\ (i = 0%nat \/ 0 < r)%R.
Proof. exact lookup_s_sound. Qed.
Theorem C59_seconds_inside : forall ds off,
  ds <> [] -> (off <= fold_right Rplus 0 ds)%R -> exists i r, getIntervalIndexByTimeOffset_s ds off = Ok (i, r).
Proof. exact lookup_s_inside. Qed.
Theorem C59_seconds_outside : forall ds off,
  Forall (fun d => 0 <= d)%R ds -> (fold_right Rplus 0 ds < off)%R \/ ds = [] -> getIntervalIndexByTimeOffset_s ds off = Throw.
Proof. exact lookup_s_outside. Qed.
(** the walking module uses the same rule; it also returns the duration of the interval *)
Theorem C59_walking : forall ds t,
  com_interval ds t =
  bind (getIntervalIndexByTimeOffset_ms ds t) (fun r => Ok (fst r, snd r, nth (fst r) ds 0%nat)).
Proof. exact com_interval_is_lookup. Qed.
Example C59_example : getIntervalIndexByTimeOffset_ms [100; 50; 100]%nat 160 = Ok (2, 10)%nat /\ getIntervalIndexByTimeOffset_ms [100; 50; 100]%nat 150 = Ok (1, 50)%nat /\
  getIntervalIndexByTimeOffset_ms [100; 50; 100]%nat 251 = Throw /\ com_interval [100; 50; 100]%nat 160 = Ok (2, 10, 100)%nat.
Proof. repeat split; reflexivity. Qed.

(** ** C61 *)
Theorem C61_pepper : forall N base body,
  (0 < N)%nat -> length base = (N * 2)%nat -> length body = (N * 2)%nat ->
  guessSolution_pepper (structure_pepper N) (mkSolution (structure_pepper N) (base ++ body)) =
  Ok (mkSolution (structure_pepper N) (shifted base ++ shifted body)).
Proof. exact guess_pepper. Qed.
Theorem C61_pepper_first : forall N x,
  guessSolution_pepper (structure_pepper N) (mkSolution structure_reset x) = Ok (mkSolution (structure_pepper N) (zeros (N * 2 + N * 2))).
Proof. exact guess_pepper_first. Qed.
Theorem C61_pepper_other_length : forall N N' base body,
  N <> N' -> (0 < N')%nat -> length base = (N' * 2)%nat -> length body = (N' * 2)%nat ->
  guessSolution_pepper (structure_pepper N) (mkSolution (structure_pepper N') (base ++ body)) = Throw.
Proof. exact guess_pepper_other_length. Qed.
(** walking: the landing positions are kept, lose the step that has been made, or get a new step at zero *)
Theorem C61_walking : forall N M M' cop foot,
  (0 < N)%nat -> length cop = (N * 2)%nat -> length foot = (M' * 2)%nat ->
  guessSolution_wpg (structure_wpg N M) (mkSolution (structure_wpg N M') (cop ++ foot)) =
  if (M =? M')%nat then Ok (mkSolution (structure_wpg N M) (shifted cop ++ foot))
  else if (S M =? M')%nat then Ok (mkSolution (structure_wpg N M) (shifted cop ++ skipn 2 foot))
  else if (M =? S M')%nat then Ok (mkSolution (structure_wpg N M) (shifted cop ++ foot ++ [0; 0]%R))
  else Throw.
Proof. exact guess_wpg. Qed.
Theorem C61_walking_first : forall N M x,
  guessSolution_wpg (structure_wpg N M) (mkSolution structure_reset x) = Ok (mkSolution (structure_wpg N M) (zeros (N * 2 + M * 2))).
Proof. exact guess_wpg_first. Qed.
Theorem C61_walking_other_length : forall N N' M M' cop foot,
  N <> N' -> (0 < N' + M')%nat -> length cop = (N' * 2)%nat -> length foot = (M' * 2)%nat ->
  guessSolution_wpg (structure_wpg N M) (mkSolution (structure_wpg N' M') (cop ++ foot)) = Throw.
Proof. exact guess_wpg_other_length. Qed.
Example C61_example : guessSolution_wpg (structure_wpg 2 1) (mkSolution (structure_wpg 2 2) [1; 2; 3; 4; 5; 6; 7; 8]%R) =
  Ok (mkSolution (structure_wpg 2 1) [3; 4; 0; 0; 7; 8]%R).
Proof. reflexivity. Qed.

Print Assumptions C57_time_line. Print Assumptions C57_time_line_default. Print Assumptions C57_rest. Print Assumptions C57_total. Print Assumptions C57_valid. Print Assumptions C57_endless. Print Assumptions C57_single. Print Assumptions C57_single_command. Print Assumptions C57_single_duration. Print Assumptions C57_update_and_shift. Print Assumptions C58_formed. Print Assumptions C58_intervals. Print Assumptions C58_single_agrees. Print Assumptions C58_receding. Print Assumptions C58_negative_duration_refuted. Print Assumptions C59_sound. Print Assumptions C59_inside. Print Assumptions C59_outside. Print Assumptions C59_seconds_sound. Print Assumptions C59_seconds_inside. Print Assumptions C59_seconds_outside. Print Assumptions C59_walking. Print Assumptions C61_pepper. Print Assumptions C61_pepper_first. Print Assumptions C61_pepper_other_length. Print Assumptions C61_walking. Print Assumptions C61_walking_first. Print Assumptions C61_walking_other_length.
