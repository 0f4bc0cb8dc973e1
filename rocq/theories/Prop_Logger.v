(** * Properties C47 (threaded logger), C48 (outputs of a logger), C49 (names of log entries) *)
From Coq Require Import String List NArith Arith Lia.
From Verif Require Import Base Logger LoggerSpec LoggerFacts LogName LogNameSpec LogNameFacts.
Import ListNotations.
Open Scope list_scope.

(** ** C47.  [sched] is an arbitrary interleaving of producers, the logging thread and the owner of the logger; [s0] is the state
    after one of the constructors; histories have the newest event first *)
Section Threads.
  Context {M : Type}. (* messages *)
  Notation lst := (lst M).
  Notation event := (event M).
Theorem C47_no_undefined_behaviour : forall (s0 : lst) sched,
  constructed s0 -> exists s, run sched s0 = Ok s.
Proof. exact no_undefined. Qed.
Theorem C47_in_order : forall (s0 : lst) sched s,
  constructed s0 -> run sched s0 = Ok s -> exists rest, inserted (hist s) = written (hist s) ++ rest.
Proof. exact in_order. Qed.
Theorem C47_nothing_lost : forall (s0 : lst) sched s later mid before,
  constructed s0 -> run sched s0 = Ok s ->
    hist s = later ++ EJoined :: mid ++ ERequest :: before -> no_request mid ->
    length (inserted before) <= length (written (mid ++ ERequest :: before)) /\
    firstn (length (inserted before)) (written (mid ++ ERequest :: before)) = inserted before.
Proof. exact nothing_lost. Qed.
Theorem C47_to_active_output : forall (s0 : lst) sched s later d m before,
  constructed s0 -> run sched s0 = Ok s -> hist s = later ++ EWrite d m :: before -> active before = Some d.
Proof. exact to_active. Qed.
Theorem C47_mutual_exclusion : forall (s0 : lst) sched s,
  constructed s0 -> run sched s0 = Ok s ->
    (forall p q, p_holds (prod s p) = true -> p_holds (prod s q) = true -> p = q) /\ (forall p, p_holds (prod s p) = true -> c_holds (cons s) = false).
Proof. exact exclusive. Qed.
Theorem C47_shutdown_can_finish : forall (s0 : lst) sched s c (dummy : M),
  constructed s0 -> run sched s0 = Ok s -> own s = OJoin c -> exists sched' s', run sched' s = Ok s' /\ own s' = OInit c.
Proof. exact shutdown_can_finish. Qed.
End Threads.
(** what the property does not promise *)
Theorem C47_without_output : exists sched s, run sched (initial OIdle) = Ok s /\ own s = ODead /\ inserted (hist s) = [7] /\ written (hist s) = [].
Proof. exact uninitialised_lost. Qed.
Theorem C47_after_request : exists sched s, run sched (initial (OInit (CallStream 3))) = Ok s /\ own s = ODead /\ inserted (hist s) = [7] /\ written (hist s) = [].
Proof. exact late_message_lost. Qed.
(** two producers, three messages, the last one inserted while the logging thread is busy; then reinitialisation with another
    stream and one more message *)
Definition busy : list (action nat) :=
  [AOwner CallDestroy true; AOwner CallDestroy true; AOwner CallDestroy true] ++
  repeat (AProducer 0 10) 4 ++ [AProducer 1 20; AProducer 1 20] ++ repeat AConsumer 2 ++ repeat (AProducer 1 20) 2 ++
  repeat AConsumer 7 ++ repeat (AProducer 0 11) 4 ++ repeat (AOwner (CallStream 5) true) 3 ++ repeat AConsumer 30 ++
  repeat (AOwner (CallStream 5) true) 4 ++ repeat (AProducer 1 21) 4 ++ repeat AConsumer 10.
Example C47_example : constructed (initial (M := nat) (OInit (CallStream 3))) /\
  exists s, run busy (initial (OInit (CallStream 3))) = Ok s /\
    rev (hist s) = [EBound (ToStream 3); EInsert 10; EInsert 20; EInsert 11; ERequest; EWrite (ToStream 3) 10; EWrite (ToStream 3) 20;
                    EWrite (ToStream 3) 11; EJoined; EBound (ToStream 5); EInsert 21; EWrite (ToStream 5) 21].
Proof. split; [right; left; eauto|]. eexists. split; [vm_compute; reflexivity|]. vm_compute. reflexivity. Qed.

(** ** C48 *)
Section Outputs.
  Context {M : Type}. (* messages *)
Theorem C48_one_file : forall (ops : list (basic_op M)),
  match ops with BStream _ :: _ | BFile _ _ :: _ => True | _ => False end -> all_open ops -> files ops <= 1 ->
    exists l, basic_run ops basic_default = Ok l /\ boutput l = ideal None ops /\ bthrown l = 0.
Proof. exact one_file. Qed.
Theorem C48_second_file_fails : forall (ops : list (basic_op M)) f g fs l l',
  basic_step (BFile f true) basic_default = Ok l -> basic_run ops l = Ok l' ->
    exists l'', basic_step (BFile g fs) l' = Ok l'' /\ bthrown l'' = S (bthrown l') /\ ofs_file (bbase l'') = Some f.
Proof. exact second_file_fails. Qed.
Theorem C48_second_file_refuted : forall (m : M),
  exists l, basic_run [BFile "a" true; BFile "b" true; BLog m] basic_default = Ok l /\ boutput l = [(Nowhere, m)].
Proof. exact second_file_refuted. Qed.
Theorem C48_no_output : forall (m : M),
  basic_run [BLog m] basic_default = UB.
Proof. exact no_output_undefined. Qed.
End Outputs.
Example C48_example : let ops := [BStream 1; BLog 10; BFile "a" true; BLog 11; BStream 2; BLog 12]%string in
  all_open ops /\ files ops <= 1 /\ ideal None ops = [(ToStream 1, 10); (ToFile "a", 11); (ToStream 2, 12)]%string.
Proof. cbn. repeat split; auto. Qed.

(** ** C49 *)
Theorem C49_unambiguous : forall ps qs, Forall plain ps -> Forall plain qs -> entry_name ps = entry_name qs -> ps = qs.
Proof. exact names_unambiguous. Qed.
Theorem C49_empty_ignored : forall ps,
  entry_name (ps ++ [Sub ""]) = entry_name ps.
Proof. exact empty_ignored. Qed.
Theorem C49_separators_ambiguous : entry_name [Sub "a.b"] = entry_name [Sub "a"; Sub "b"] /\ entry_name [Sub "a{1}"] = entry_name [Sub "a"; Index 0].
Proof. exact separators_ambiguous. Qed.
Example C49_example : Forall plain [Sub "com"; Index 0; Sub "x"; Index 41]%string /\ entry_name [Sub "com"; Index 0; Sub "x"; Index 41]%string = "com{1}.x{42}"%string.
Proof. split; [|reflexivity]. repeat constructor; try discriminate; cbn; intuition; subst; discriminate. Qed.

Print Assumptions C47_no_undefined_behaviour. Print Assumptions C47_in_order. Print Assumptions C47_nothing_lost. Print Assumptions C47_to_active_output. Print Assumptions C47_mutual_exclusion. Print Assumptions C47_shutdown_can_finish. Print Assumptions C47_without_output. Print Assumptions C47_after_request. Print Assumptions C48_one_file. Print Assumptions C48_second_file_fails. Print Assumptions C48_second_file_refuted. Print Assumptions C48_no_output. Print Assumptions C49_unambiguous. Print Assumptions C49_empty_ignored. Print Assumptions C49_separators_ambiguous.
