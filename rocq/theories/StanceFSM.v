(** * Model of /repo/core/include/walking/stance_finite_state_machine.h
    Durations and times are natural numbers (milliseconds); std::size_t
    wrap-around of sums is not modelled, an underflowing subtraction is [UB]. *)
From Coq Require Import List Arith Lia Bool.
From Verif Require Import Base.
Import ListNotations.

(** stance_finite_state_machine.h:20-40 *)
Inductive stance_type := ST_UNDEFINED | DS | LSS | RSS | TDS.

(** stance_finite_state_machine.h:46-63 *)
Inductive stance_subtype := SUB_UNDEFINED | FIRST | INTERMEDIATE | LAST.

(** stance_finite_state_machine.h:74-85 determineSupportFoot: [true] = LEFT, [false] = RIGHT *)
Definition determineSupportFoot (t : stance_type) : outcome bool :=
  match t with
  | LSS => Ok true
  | RSS => Ok false
  | _ => Throw
  end.

(** stance_finite_state_machine.h:92-117 StanceFSMParameters.  [last_stance_] is
    stored but never read by the state machine. *)
Record params := mkParams {
  first_stance : stance_type;
  first_ss_type : stance_type;
  last_stance : stance_type;
  ss_duration : nat;
  tds_duration : nat;
  first_duration : nat;
  last_duration : nat;
  num_steps : nat }.

(** stance_finite_state_machine.h:159-171 setDefaults *)
Definition default_params : params := mkParams DS RSS DS 700 100 300 2900 7.

(** stance_finite_state_machine.h:137-153 getDurationMs *)
Definition getDuration (p : params) (t : stance_type) : outcome nat :=
  match t with
  | DS => Ok (last_duration p)
  | TDS => Ok (tds_duration p)
  | LSS => Ok (ss_duration p)
  | RSS => Ok (ss_duration p)
  | ST_UNDEFINED => Throw
  end.

(** stance_finite_state_machine.h:178-187 Stance *)
Record stance := mkStance {
  st_type : stance_type;
  prev_nonds : stance_type;
  prev_nontds : stance_type;
  subtype : stance_subtype;
  duration : nat;
  total_duration : nat }.

(** stance_finite_state_machine.h:232, 278-283 StanceFiniteStateMachine *)
Record fsm := mkFsm {
  is_tds_started : bool;
  ss_left : nat;          (* ss_states_to_termination_ *)
  cur_time : nat;         (* current_time_ms_ *)
  cur : stance;           (* current_stance_ *)
  fparams : params }.     (* sfsm_params_ *)

(** assignment to num_steps_, stance_finite_state_machine.h:159-171 *)
Definition set_num_steps (p : params) (n : nat) : params :=
  mkParams (first_stance p) (first_ss_type p) (last_stance p) (ss_duration p)
           (tds_duration p) (first_duration p) (last_duration p) n.

(** stance_finite_state_machine.h:235-275 finalize, reached from the constructors
    (292-295, 396-400) and setParameters (299-303).  [total_duration_ms_] keeps its
    value 0 from the Stance constructor (194-202). *)
Definition init (p : params) : outcome fsm :=
  assert_then (negb (num_steps p =? 1))
    (let mk prev p' :=
       Ok (mkFsm false (num_steps p) 0
            (mkStance (first_stance p) prev ST_UNDEFINED FIRST (first_duration p) 0) p') in
     match first_stance p with
     | LSS => mk LSS p
     | RSS => mk RSS p
     | DS => match first_ss_type p with
             | RSS => mk LSS p
             | LSS => mk RSS p
             | ST_UNDEFINED => mk ST_UNDEFINED (set_num_steps p 0) (* line 264: after the counter was set at 239 *)
             | _ => Throw
             end
     | _ => Throw
     end).

(** stance_finite_state_machine.h:431-511 shiftStance *)
Definition shiftStance (s : fsm) : outcome fsm :=
  let p := fparams s in
  let c := cur s in
  match st_type c with
  | LSS | RSS => (* 439-453 *)
      bind (getDuration p TDS) (fun d =>
        Ok (mkFsm true (ss_left s) 0
             (mkStance TDS (st_type c) (st_type c) INTERMEDIATE d (total_duration c)) p))
  | TDS => (* 455-489 *)
      match ss_left s with
      | O =>
          bind (getDuration p DS) (fun d =>
            Ok (mkFsm false 0 0
                 (mkStance DS (prev_nonds c) (prev_nontds c) LAST d (total_duration c)) p))
      | S k =>
          match prev_nonds c with
          | LSS =>
              bind (getDuration p RSS) (fun d =>
                Ok (mkFsm false k 0
                     (mkStance RSS (prev_nonds c) (prev_nontds c) INTERMEDIATE d (total_duration c)) p))
          | RSS =>
              bind (getDuration p LSS) (fun d =>
                Ok (mkFsm false k 0
                     (mkStance LSS (prev_nonds c) (prev_nontds c) INTERMEDIATE d (total_duration c)) p))
          | _ => Throw
          end
      end
  | DS => (* 491-506 *)
      match ss_left s with
      | O =>
          bind (getDuration p DS) (fun d =>
            Ok (mkFsm true 0 0
                 (mkStance DS (prev_nonds c) DS INTERMEDIATE d (total_duration c)) p))
      | S k =>
          bind (getDuration p TDS) (fun d =>
            Ok (mkFsm true (S k) 0
                 (mkStance TDS (prev_nonds c) DS INTERMEDIATE d (total_duration c)) p))
      end
  | ST_UNDEFINED => Throw (* 508-509 *)
  end.

(** Result of a loop run with limited fuel. (no code of its own: the loop of stance_finite_state_machine.h:316-377) *)
Inductive run (A : Type) := Finished (o : outcome A) | NoFuel.
Arguments Finished {A} o.
Arguments NoFuel {A}.

(** assignment to is_tds_started_, stance_finite_state_machine.h:431-511 *)
Definition set_tds_started (s : fsm) (b : bool) : fsm :=
  mkFsm b (ss_left s) (cur_time s) (cur s) (fparams s).

(** assignment to the current time, stance_finite_state_machine.h:408-425 *)
Definition set_cur_time (s : fsm) (t : nat) : fsm :=
  mkFsm (is_tds_started s) (ss_left s) t (cur s) (fparams s).

(** stance_finite_state_machine.h:408-425 shiftTime; one unit of fuel per loop iteration *)
Fixpoint shiftTime (fuel : nat) (s : fsm) (time : nat) : run fsm :=
  if time =? 0 then Finished (Ok s)
  else match fuel with
  | O => NoFuel
  | S f =>
      let s1 := set_tds_started s false in
      if cur_time s1 + time <? duration (cur s1)
      then shiftTime f (set_cur_time s1 (cur_time s1 + time)) 0
      else if cur_time s1 <=? duration (cur s1)
      then match shiftStance s1 with
           | Ok s2 => shiftTime f s2 (time - (duration (cur s1) - cur_time s1))
           | Throw => Finished Throw
           | UB => Finished UB
           end
      else Finished UB (* size_t underflow at 421 *)
  end.

(** stance_finite_state_machine.h:383-388 getNextStance *)
Definition getNextStance (s : fsm) : outcome stance :=
  bind (shiftStance s) (fun s' => Ok (cur s')).

(** The stance pushed by one iteration of the preview loop, 328-333 *)
Definition preview_entry (s : fsm) (time : nat) : stance :=
  mkStance (st_type (cur s)) (prev_nonds (cur s)) (prev_nontds (cur s)) (subtype (cur s))
           (Nat.min (duration (cur s) - cur_time s) time) (duration (cur s)).

(** The stance appended after a final TDS, 366-371 *)
Definition preview_last_entry (s : fsm) : stance :=
  mkStance (st_type (cur s)) (prev_nonds (cur s)) (prev_nontds (cur s)) (subtype (cur s)) 0 0.

(** Loop of previewStances, 326-356: returns the machine copy, the flag
    not_enough_states and the collected stances. *)
Fixpoint preview_loop (fuel : nat) (s : fsm) (time : nat) (acc : list stance)
  : run (fsm * bool * list stance) :=
  if time =? 0 then Finished (Ok (s, false, acc))
  else match fuel with
  | O => NoFuel
  | S f =>
      if negb (cur_time s <=? duration (cur s)) then Finished UB (* size_t underflow at 330 *)
      else
      let e := preview_entry s time in
      if cur_time s + time <=? duration (cur s)
      then preview_loop f s 0 (acc ++ [e])  (* 337-338: duration_ms is already 0 when it is added *)
      else
        let time' := time - (duration (cur s) - cur_time s) in
        if (ss_left s =? 0) && match st_type (cur s) with DS => true | _ => false end
        then Finished (Ok (s, true, acc))   (* 346-347: break before push_back *)
        else match shiftStance s with
             | Ok s2 => preview_loop f s2 time' (acc ++ [e])
             | Throw => Finished Throw
             | UB => Finished UB
             end
  end.

(** the comparison with TDS, stance_finite_state_machine.h:383-388 *)
Definition is_tds (t : stance_type) : bool :=
  match t with TDS => true | _ => false end.

(** stance_finite_state_machine.h:316-377 previewStances; the machine itself is
    only copied (const member function). *)
Definition previewStances (fuel : nat) (s : fsm) (time : nat) : run (list stance) :=
  match preview_loop fuel s time [] with
  | NoFuel => NoFuel
  | Finished Throw => Finished Throw
  | Finished UB => Finished UB
  | Finished (Ok (s', not_enough, l)) =>
      if not_enough then Finished (Ok l)
      else match last (map (@Some stance) l) None with
           | None => Finished UB (* back() of an empty vector, 359 *)
           | Some b =>
               if is_tds (st_type b)
               then match (if is_tds (st_type (cur s')) then shiftStance s' else Ok s') with
                    | Ok s'' => Finished (Ok (l ++ [preview_last_entry s'']))
                    | Throw => Finished Throw
                    | UB => Finished UB
                    end
               else Finished (Ok l)
           end
  end.

(** Repeated shiftStance. (stance_finite_state_machine.h:431-511) *)
Fixpoint shifts (n : nat) (s : fsm) : outcome fsm :=
  match n with
  | O => Ok s
  | S k => bind (shiftStance s) (shifts k)
  end.
