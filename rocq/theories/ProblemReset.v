(** * Sizes of the active sets of a hierarchy which has been reset (C82) *)
From Coq Require Import List Arith Bool Lia.
From Verif Require Import Base BaseFacts ActiveSet ActiveSetFacts ConstraintType HierarchyLevel HierarchySpec Problem ProblemSpec ProblemFacts.
Import ListNotations.
Local Open Scope nat_scope.

Lemma initialized p : length (pb_counts p) = length (pb_levels p) -> pb_initializeActiveSet p = Ok (map as_initialize (pb_counts p)).
Proof. intros L. unfold pb_initializeActiveSet, pb_getNumberOfLevels. rewrite <- L. apply ass_initialize_eq. Qed.

(** After reset() the levels which existed before keep their sizes until form() is called, levels which did not exist are empty; in a new hierarchy all levels are empty *)
Theorem reset_sizes (n : nat) (p : problem) : preach p ->
  pb_initializeActiveSet (pb_reset n pb_new) = Ok (repeat [] n) /\
  exists s0 s, pb_initializeActiveSet p = Ok s0 /\ pb_initializeActiveSet (pb_reset n p) = Ok s /\ length s0 = pb_getNumberOfLevels p /\ length s = n /\
  forall i, i < n -> nth i s [] = nth i s0 [].
Proof.
  intros P. destruct (preach_wf p P) as [_ L].
  assert (Q : forall q k, length (pb_counts q) = length (pb_levels q) -> length (pb_counts (pb_reset k q)) = length (pb_levels (pb_reset k q))).
  { intros q k _. cbn [pb_reset pb_counts pb_levels]. unfold resize_counts. rewrite app_length, firstn_length, !repeat_length. lia. }
  split.
  - rewrite initialized by (apply Q; reflexivity). f_equal. cbn [pb_reset pb_counts pb_new]. unfold resize_counts. rewrite !firstn_nil. cbn [app length].
    rewrite Nat.sub_0_r. cbn [Nat.sub repeat app]. clear. rewrite ?firstn_nil. induction n as [|n IH]; cbn; [reflexivity|]. rewrite ?Nat.sub_0_r in *. f_equal. exact IH.
  - exists (map as_initialize (pb_counts p)), (map as_initialize (pb_counts (pb_reset n p))).
    repeat apply conj; [apply initialized; exact L|apply initialized; apply Q; exact L|rewrite map_length; exact L| |].
    + rewrite map_length, (Q p n L). apply repeat_length.
    + intros i Hi. change (@nil act) with (as_initialize 0). rewrite !map_nth. f_equal. cbn [pb_reset pb_counts]. unfold resize_counts.
      destruct (Nat.lt_ge_cases i (length (pb_counts p))) as [A|A].
      * rewrite app_nth1 by (rewrite firstn_length; lia). rewrite <- (firstn_skipn n (pb_counts p)) at 2. rewrite app_nth1 by (rewrite firstn_length; lia). reflexivity.
      * rewrite (nth_overflow (pb_counts p)) by exact A. rewrite firstn_all2 by lia. rewrite app_nth2 by exact A. apply nth_repeat.
Qed.
