(** * Properties C08, C09 and C62. Vocabulary in HierarchySpec.v. *)
From Coq Require Import List Arith.
From Verif Require Import Base ActiveSet ConstraintType HierarchyLevel HierarchySpec HierarchyFacts.
Import ListNotations.

(** C08. After forming a level with any history: every row belongs to exactly one task, the number of rows
    of a task is what its form() produced, general constraints precede simple ones. *)
Theorem C08_partition :
  forall fo guessing l l', lreach l -> level_form fo guessing l = Ok l' ->
  same_tasks l l' /\
  (forall r, r < level_getNumberOfConstraints l' -> exists! k, owns l' k r) /\
  (forall k r, owns l' k r -> r < level_getNumberOfConstraints l') /\
  (forall i, In i (lv_tasks l') -> len (ti_loc i) = f_n (fo (tk_id (ti_task i)))) /\
  (forall i j, In i (lv_tasks l') -> In j (lv_tasks l') ->
      general_task (ti_task i) = true -> simple_task (ti_task j) = true ->
      offset (ti_loc i) + len (ti_loc i) <= offset (ti_loc j)).
Proof. exact reach_partition. Qed.
Print Assumptions C08_partition.

(** C08. The tasks of the level are exactly the pushed ones (general in reverse order of pushes, then
    simple in the order of pushes), each with the number of rows it asked for. *)
Theorem C08_tasks_and_sizes :
  forall fo guessing ts l', level_form fo guessing (pushed ts) = Ok l' ->
  map (fun i => (tk_id (ti_task i), tk_type (ti_task i), len (ti_loc i))) (lv_tasks l') =
  map (fun t => (tk_id t, tk_type t, f_n (fo (tk_id t))))
      (rev (filter general_task ts) ++ filter simple_task ts).
Proof. exact tasks_of_pushed. Qed.
Print Assumptions C08_tasks_and_sizes.

(** C08. The counters *)
Theorem C08_numbers :
  forall fo guessing ts l', level_form fo guessing (pushed ts) = Ok l' ->
  level_getNumberOfConstraints l' = rows fo (fun _ => true) ts /\
  n_general l' = rows fo general_task ts /\
  n_simple l' = rows fo simple_task ts /\
  n_equality l' = rows fo (fun t => ct_isEquality (tk_type t)) ts /\
  n_twosided l' = rows fo (fun t => ct_isTwoSided (tk_type t)) ts.
Proof. exact numbers_pushed. Qed.
Print Assumptions C08_numbers.

(** C08. Exactly when forming succeeds *)
Theorem C08_accepted_iff :
  forall fo guessing ts,
  (exists l', level_form fo guessing (pushed ts) = Ok l') <->
  Forall (formable fo guessing) ts /\ 0 < rows fo (fun _ => true) ts.
Proof. exact form_pushed_iff. Qed.
Print Assumptions C08_accepted_iff.

Definition t1 := mkTask 1 ILU 0 true [] [].
Definition t2 := mkTask 2 AB 0 true [] [].
Definition t3 := mkTask 3 ASL 0 true [] [].
Example C08_case :
  exists l', level_form (fun i => mkFormed i true true None) true (pushed [t1; t2; t3]) = Ok l' /\
    map (fun i => (tk_id (ti_task i), ti_loc i)) (lv_tasks l') =
    [(3, mkLoc 0 3); (2, mkLoc 3 2); (1, mkLoc 5 1)].
Proof. eexists; split; reflexivity. Qed.

(** C09. Distributing: every task receives its rows, and nothing is lost; a too short set is rejected *)
Theorem C09_distribute :
  forall fo guessing l l1 s, lreach l -> level_form fo guessing l = Ok l1 ->
  (length s = level_getNumberOfConstraints l1 ->
   exists l2, level_processActiveSet l1 s = Ok l2 /\ same_tasks l1 l2 /\
     map ti_loc (lv_tasks l2) = map ti_loc (lv_tasks l1) /\
     (forall i, In i (lv_tasks l2) -> tk_actual (ti_task i) = segment s (offset (ti_loc i)) (len (ti_loc i))) /\
     concat (map (fun i => tk_actual (ti_task i)) (lv_tasks l2)) = s) /\
  (length s < level_getNumberOfConstraints l1 -> level_processActiveSet l1 s = Throw).
Proof. exact process_reach. Qed.
Print Assumptions C09_distribute.

(** C09. Collecting: every task's guess is in its own rows *)
Theorem C09_collect :
  forall fo l l' s, (forall k, full_guess (fo k)) -> lreach l -> level_form fo true l = Ok l' ->
  length s = level_getNumberOfConstraints l' ->
  exists r, level_guessActiveSet l' s = Ok r /\ length r = length s /\
    forall i, In i (lv_tasks l') -> segment r (offset (ti_loc i)) (len (ti_loc i)) = tk_guess (ti_task i).
Proof. exact guess_reach. Qed.
Print Assumptions C09_collect.

(** C09. The guess of a modified task is the default one *)
Theorem C09_default_guess :
  forall fo l l' s, (forall k, full_guess (fo k)) -> lreach l -> level_form fo true l = Ok l' ->
  length s = level_getNumberOfConstraints l' ->
  exists r, level_guessActiveSet l' s = Ok r /\ length r = length s /\
    forall i, In i (lv_tasks l') -> f_guess (fo (tk_id (ti_task i))) = None -> f_unmodified (fo (tk_id (ti_task i))) = false ->
      segment r (offset (ti_loc i)) (len (ti_loc i)) =
      repeat (if ct_isEquality (tk_type (ti_task i)) then EQUALITY else INACTIVE) (len (ti_loc i)).
Proof. exact default_guess. Qed.
Print Assumptions C09_default_guess.

(** C09. The guess of a task with its own function guessActiveSet() is what this function gives for the formed task *)
Theorem C09_own_guess :
  forall fo l l' s, (forall k, full_guess (fo k)) -> lreach l -> level_form fo true l = Ok l' ->
  length s = level_getNumberOfConstraints l' ->
  exists r, level_guessActiveSet l' s = Ok r /\ length r = length s /\
    forall k i0 i g, nth_error (lv_tasks l) k = Some i0 -> nth_error (lv_tasks l') k = Some i -> let f := fo (tk_id (ti_task i)) in
      f_guess f = Some g -> g (userForm f (preForm (ti_task i0))) = Ok (segment r (offset (ti_loc i)) (len (ti_loc i))).
Proof. exact own_guess. Qed.
Print Assumptions C09_own_guess.
Example C09_own_case : let fo i := mkFormed i true true (Some (fun t => Ok (repeat UPPER_BOUND (tk_n t)))) in
  (forall k, full_guess (fo k)) /\ exists l1, level_form fo true (pushed [t1; t2]) = Ok l1 /\ level_guessActiveSet l1 (as_initialize 3) = Ok [UPPER_BOUND; UPPER_BOUND; UPPER_BOUND].
Proof.
  split; [|eexists; split; vm_compute; reflexivity]. intros k g t a E H. injection E as <-. injection H as <-. apply repeat_length.
Qed.

(** C09. Round trip: distribute, form again with unmodified tasks, collect *)
Theorem C09_round_trip :
  forall fo guessing fo2 l l1 s s0,
  lreach l -> level_form fo guessing l = Ok l1 ->
  length s = level_getNumberOfConstraints l1 ->
  (forall i, In i (lv_tasks l1) -> let f := fo2 (tk_id (ti_task i)) in
      f_n f = tk_n (ti_task i) /\ f_consistent f = true /\ f_unmodified f = true /\ f_guess f = None) ->
  length s0 = length s ->
  exists l2 l3, level_processActiveSet l1 s = Ok l2 /\ level_form fo2 true l2 = Ok l3 /\
                level_guessActiveSet l3 s0 = Ok s.
Proof. exact roundtrip_reach. Qed.
Print Assumptions C09_round_trip.

Example C09_case :
  exists l1 l2 l3, level_form (fun i => mkFormed i true true None) true (pushed [t1; t2]) = Ok l1 /\
    level_processActiveSet l1 [UPPER_BOUND; INACTIVE; LOWER_BOUND] = Ok l2 /\
    level_form (fun i => mkFormed i true true None) true l2 = Ok l3 /\
    level_guessActiveSet l3 (as_initialize 3) = Ok [UPPER_BOUND; INACTIVE; LOWER_BOUND].
Proof. do 3 eexists. repeat apply conj; vm_compute; reflexivity. Qed.

(** C62. With guessing, consistent modified tasks can be formed after any history ... *)
Theorem C62_with_guessing :
  forall fo l, lreach l ->
  (forall i, In i (lv_tasks l) ->
     f_consistent (fo (tk_id (ti_task i))) = true /\ f_unmodified (fo (tk_id (ti_task i))) = false /\ f_guess (fo (tk_id (ti_task i))) = None) ->
  0 < list_sum (map (fun i => f_n (fo (tk_id (ti_task i)))) (lv_tasks l)) ->
  exists l', level_form fo true l = Ok l'.
Proof. exact history_free. Qed.
Print Assumptions C62_with_guessing.

(** C62. ... in general exactly when sizes kept from earlier match ([formable]) ... *)
Theorem C62_accepted_iff :
  forall fo guessing l, lreach l ->
  ((exists l', level_form fo guessing l = Ok l') <->
   Forall (fun i => formable fo guessing (ti_task i)) (lv_tasks l) /\
   0 < list_sum (map (fun i => f_n (fo (tk_id (ti_task i)))) (lv_tasks l))).
Proof. exact form_reach_iff. Qed.
Print Assumptions C62_accepted_iff.

(** C62. ... so that without guessing a stale guess makes forming of a consistent task fail *)
Theorem C62_stale_guess_refuted :
  exists (t : task) (fo1 fo2 : nat -> formed) (l1 : level),
    level_form fo1 true (pushed [t]) = Ok l1 /\
    f_consistent (fo2 (tk_id t)) = true /\ f_unmodified (fo2 (tk_id t)) = false /\ 0 < f_n (fo2 (tk_id t)) /\
    (exists l2, level_form fo2 false (pushed [t]) = Ok l2) /\
    level_form fo2 false l1 = Throw.
Proof. exact stale_guess_refuted. Qed.
Print Assumptions C62_stale_guess_refuted.

Example C62_case : lreach (pushed [t1; t2; t3]).
Proof. apply pushed_reach. Qed.
