(** * Specification vocabulary for the stance state machine (properties C19-C23). *)
From Coq Require Import List Arith Bool.
From Verif Require Import Base StanceFSM.
Import ListNotations.

(** the other foot *)
Definition opp (t : stance_type) : stance_type :=
  match t with LSS => RSS | RSS => LSS | x => x end.

(** single support *)
Definition is_ss (t : stance_type) : bool :=
  match t with LSS | RSS => true | _ => false end.

(** the i-th stance of the execution started in [s] has type [t] *)
Definition type_at (s : fsm) (i : nat) (t : stance_type) : Prop :=
  exists s', shifts i s = Ok s' /\ st_type (cur s') = t.

(** Everything a user can do with the machine: shift to the next stance or shift time. *)
Inductive reach : fsm -> fsm -> Prop :=
| reach_refl s : reach s s
| reach_stance s s1 s2 : shiftStance s = Ok s1 -> reach s1 s2 -> reach s s2
| reach_time s t fuel s1 s2 : shiftTime fuel s t = Finished (Ok s1) -> reach s1 s2 -> reach s s2.

(** Slicing a shift into any list of shifts *)
Fixpoint shiftTimes (fuel : nat) (s : fsm) (ts : list nat) : run fsm :=
  match ts with
  | [] => Finished (Ok s)
  | t :: r => match shiftTime fuel s t with
              | Finished (Ok s1) => shiftTimes fuel s1 r
              | x => x
              end
  end.

(** sum of the durations of the first [i] stances of a list *)
Fixpoint psum (l : list stance) (i : nat) : nat :=
  match i, l with
  | S j, e :: l' => duration e + psum l' j
  | _, _ => 0
  end.

(** the machine is in the listed stance *)
Definition same_stance (e : stance) (s : fsm) : Prop :=
  st_type (cur s) = st_type e /\ prev_nonds (cur s) = prev_nonds e /\
  prev_nontds (cur s) = prev_nontds e /\ subtype (cur s) = subtype e /\
  duration (cur s) = total_duration e.

(** type, history and subtype, i.e. everything but the durations *)
Definition same_kind (e : stance) (s : fsm) : Prop :=
  st_type (cur s) = st_type e /\ prev_nonds (cur s) = prev_nonds e /\
  prev_nontds (cur s) = prev_nontds e /\ subtype (cur s) = subtype e.

(** states in which the machine can make a step: reached from accepted parameters
    unless a walk is requested with an undefined first foot *)
Definition wf (s : fsm) : Prop :=
  cur_time s <= duration (cur s) /\
  match st_type (cur s) with
  | LSS | RSS => True
  | TDS | DS => ss_left s = 0 \/ is_ss (prev_nonds (cur s)) = true
  | ST_UNDEFINED => False
  end.

(** all durations used after the first stance are positive *)
Definition pos_durations (p : params) : Prop :=
  ss_duration p > 0 /\ tds_duration p > 0 /\ last_duration p > 0.

(** the final double support *)
Definition terminal (s : fsm) : Prop := st_type (cur s) = DS /\ ss_left s = 0.
