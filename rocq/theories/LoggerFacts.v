From Coq Require Import String List Arith Lia Bool.
From Verif Require Import Base BaseFacts Logger LoggerSpec.
Import ListNotations.

Section Facts.
  Context {M : Type}.
  Notation lst := (lst M). Notation event := (event M).

  Definition c_holds (c : cpc M) : bool := match c with CSize _ | CUnlock _ _ | CPop _ _ | CPopUnlock _ _ _ => true | _ => false end.
  Definition p_holds (p : ppc M) : bool := match p with PPush _ | PUnlock => true | _ => false end.
  Definition inflight (c : cpc M) : list M := match c with CPopUnlock _ _ m | CWrite _ _ m => [m] | _ => [] end.
  Definition left (c : cpc M) : nat :=
    match c with CUnlock _ n | CTest _ n | CPopLock _ n | CPop _ n | CPopUnlock _ n _ | CWrite _ n _ => n | _ => 0 end.
  Definition stopping (c : cpc M) : bool :=
    match c with CTop s | CLock s | CSize s | CUnlock s _ | CTest s _ | CPopLock s _ | CPop s _ | CPopUnlock s _ _ | CWrite s _ _ | CFlush s => s | CDone => true | CNone => false end.
  (** the number of messages inserted before the last request *)
  Fixpoint must (h : list event) : nat := match h with [] => 0 | ERequest :: t => length (inserted t) | _ :: t => must t end.
  Definition counted (c : cpc M) : bool := (* the size of the queue has been read *)
    match c with CUnlock _ _ | CTest _ _ | CPopLock _ _ | CPop _ _ | CPopUnlock _ _ _ | CWrite _ _ _ | CFlush _ | CDone | CNone => true | _ => false end.

  Record Inv (s : lst) : Prop := {
    i_lock : match mutex s with
             | None => c_holds (cons s) = false /\ forall p, p_holds (prod s p) = false
             | Some Consumer => c_holds (cons s) = true /\ forall p, p_holds (prod s p) = false
             | Some (Producer p) => c_holds (cons s) = false /\ p_holds (prod s p) = true /\ forall q, q <> p -> p_holds (prod s q) = false
             end;
    i_queue : written (hist s) ++ inflight (cons s) ++ queue s = inserted (hist s);
    i_left : left (cons s) <= length (queue s);
    i_pop : match cons s with CPop _ n => 0 < n | _ => True end;
    i_own : match cons s with
            | CNone => match own s with OSet _ | OJoin _ => False | OThread => interrupted s = false | _ => interrupted s = true end
            | _ => match own s with OIdle | OCheck _ | OSet _ => interrupted s = false | OJoin _ => interrupted s = true | _ => False end
            end;
    i_stop : stopping (cons s) = true -> interrupted s = true;
    i_must : must (hist s) <= length (inserted (hist s));
    i_done : counted (cons s) = true -> (stopping (cons s) = true \/ cons s = CNone) -> must (hist s) <= length (written (hist s)) + length (inflight (cons s)) + left (cons s);
    i_active : match cons s, own s with
               | CNone, OFlag | CNone, OThread => exists d, active (hist s) = Some d /\ base_dest (base s) = Some d
               | CNone, _ => True
               | _, _ => exists d, active (hist s) = Some d /\ base_dest (base s) = Some d
               end;
    i_joined : forall later mid before, hist s = later ++ EJoined :: mid ++ ERequest :: before -> no_request mid ->
               length (inserted before) <= length (written (mid ++ ERequest :: before));
    i_dest : forall later d m before, hist s = later ++ EWrite d m :: before -> active before = Some d
  }.

  Lemma cons_split (e : event) h later x before : e :: h = later ++ x :: before ->
    (later = [] /\ x = e /\ before = h) \/ exists l, later = e :: l /\ h = l ++ x :: before.
  Proof. destruct later as [|y l]; cbn; intros E; inversion E; subst; [left; auto|right; eauto]. Qed.
  Lemma joined_keep (e : event) h : e <> EJoined ->
    (forall later mid before, h = later ++ EJoined :: mid ++ ERequest :: before -> no_request mid -> length (inserted before) <= length (written (mid ++ ERequest :: before))) ->
    forall later mid before, e :: h = later ++ EJoined :: mid ++ ERequest :: before -> no_request mid -> length (inserted before) <= length (written (mid ++ ERequest :: before)).
  Proof. intros N H later mid before E NR. apply cons_split in E. destruct E as [(_ & E & _)|(l & _ & E)]; [congruence|]. eapply H; eauto. Qed.
  Lemma dest_keep (e : event) h : match e with EWrite d m => active h = Some d | _ => True end ->
    (forall later d m before, h = later ++ EWrite d m :: before -> active before = Some d) ->
    forall later d m before, e :: h = later ++ EWrite d m :: before -> active before = Some d.
  Proof. intros N H later d m before E. apply cons_split in E. destruct E as [(_ & E & B)|(l & _ & E)]; [subst; exact N|]. eapply H; eauto. Qed.
  Lemma must_split mid before : no_request mid -> must (mid ++ ERequest :: before) = length (inserted before).
  Proof. intros [N _]. induction mid as [|e mid IH]; [reflexivity|]. cbn in N. destruct e; cbn; try (apply IH; tauto). destruct N; left; reflexivity. Qed.

  Lemma inv_initial s : constructed s -> Inv s.
  Proof.
    intros [->|[[n ->]|[f ->]]]; (constructor; cbn; auto; try (intros; discriminate); try (split; auto); try lia);
      try (intros later mid before E; destruct later; discriminate); try (intros later d m before E; destruct later; discriminate).
  Qed.

  Ltac unf := unfold set_prod, set_cons, set_own in *; cbn [base queue mutex interrupted cons own prod hist] in *.
  Ltac trace := first [ apply joined_keep; [discriminate|assumption] | apply dest_keep; [exact I|assumption] | assumption ].

  Lemma inv_producer p m s s' : Inv s -> step_producer p m s = Some s' -> Inv s'.
  Proof.
    intros [IL IQ ILf IP IO IS IM ID IA IJ IW] E. unfold step_producer in E. destruct (prod s p) as [|m'|m'|] eqn:P.
    - assert (X : Inv {| base := base s; queue := queue s; mutex := mutex s; interrupted := interrupted s; cons := cons s; own := own s; prod := set_prod s p (PLock m); hist := hist s |}).
      { constructor; unf; auto. destruct (mutex s) as [[|q]|].
        - destruct IL as [A B]. split; [exact A|]. intros r. destruct (Nat.eqb_spec r p); [reflexivity|apply B].
        - destruct IL as (A & B & C). split; [exact A|]. split.
          + destruct (Nat.eqb_spec q p) as [->|N]; [rewrite P in B; discriminate|exact B].
          + intros r Hr. destruct (Nat.eqb_spec r p); [reflexivity|apply C, Hr].
        - destruct IL as [A B]. split; [exact A|]. intros r. destruct (Nat.eqb_spec r p); [reflexivity|apply B]. }
      destruct (own s); try discriminate; injection E as <-; exact X.
    - destruct (mutex s) eqn:Mu; [discriminate|]. injection E as <-. constructor; unf; auto.
      destruct IL as [A B]. split; [exact A|]. rewrite Nat.eqb_refl. split; [reflexivity|]. intros r Hr. rewrite (proj2 (Nat.eqb_neq r p)) by exact Hr. apply B.
    - injection E as <-.
      assert (PH : p_holds (prod s p) = true) by (rewrite P; reflexivity).
      constructor; unf; auto; try trace.
      + destruct (mutex s) as [[|q]|].
        * destruct IL as [A B]. rewrite B in PH. discriminate.
        * destruct IL as (A & B & C). destruct (Nat.eq_dec q p) as [->|N]; [|rewrite (C p) in PH by auto; discriminate].
          split; [exact A|]. rewrite Nat.eqb_refl. split; [reflexivity|]. intros r Hr. rewrite (proj2 (Nat.eqb_neq r p)) by exact Hr. apply C, Hr.
        * destruct IL as [A B]. rewrite B in PH. discriminate.
      + cbn [written inserted]. rewrite <- IQ, <- !app_assoc. reflexivity.
      + rewrite app_length. lia.
      + cbn [must inserted]. rewrite app_length. lia.
    - injection E as <-. assert (PH : p_holds (prod s p) = true) by (rewrite P; reflexivity).
      constructor; unf; auto.
      destruct (mutex s) as [[|q]|].
      * destruct IL as [A B]. rewrite B in PH. discriminate.
      * destruct IL as (A & B & C). destruct (Nat.eq_dec q p) as [->|N]; [|rewrite (C p) in PH by auto; discriminate].
        split; [exact A|]. intros r. destruct (Nat.eqb_spec r p); [reflexivity|apply C; assumption].
      * destruct IL as [A B]. rewrite B in PH. discriminate.
  Qed.

  Lemma inv_consumer s o : Inv s -> step_consumer s = Some o -> exists s', o = Ok s' /\ Inv s'.
  Proof.
    intros [IL IQ ILf IP IO IS IM ID IA IJ IW] E. unfold step_consumer in E.
    destruct (cons s) as [|stop|stop|stop|stop n|stop n|stop n|stop n|stop n m|stop n m|stop|] eqn:C; try discriminate; cbn [c_holds inflight left stopping counted] in *.
    - injection E as <-. eexists. split; [reflexivity|]. constructor; unf; auto; try discriminate; cbn [c_holds inflight left stopping counted]; auto; try discriminate; try (destruct (interrupted s); auto; fail).
    - destruct (mutex s) eqn:Mu; [discriminate|]. injection E as <-. eexists. split; [reflexivity|]. destruct IL as [A B].
      constructor; unf; auto; cbn [c_holds inflight left stopping counted]; auto; try discriminate.
    - injection E as <-. eexists. split; [reflexivity|]. constructor; unf; auto; cbn [c_holds inflight left stopping counted]; auto.
      intros _ _. rewrite <- IQ, !app_length in IM. cbn in IM. cbn. lia.
    - injection E as <-. eexists. split; [reflexivity|]. constructor; unf; auto; cbn [c_holds inflight left stopping counted]; auto.
      1: destruct (mutex s) as [[|q]|].
      + destruct IL as [A B]. split; auto.
      + destruct IL as (A & B & C'). discriminate.
      + destruct IL as [A B]. discriminate.
      + intros X [Y|Y]; [|discriminate]. apply ID; auto.
    - injection E as <-. eexists. split; [reflexivity|]. destruct n as [|n].
      + destruct stop; constructor; unf; auto; cbn [c_holds inflight left stopping counted]; auto; try discriminate.
      + constructor; unf; auto; cbn [c_holds inflight left stopping counted]; auto.
        intros X [Y|Y]; [|discriminate]. apply ID; auto.
    - destruct n as [|n].
      + injection E as <-. eexists. split; [reflexivity|]. constructor; unf; auto; cbn [c_holds inflight left stopping counted]; auto.
        intros X [Y|Y]; [|discriminate]. apply ID; auto.
      + destruct (mutex s) eqn:Mu; [discriminate|]. injection E as <-. eexists. split; [reflexivity|]. destruct IL as [A B].
        constructor; unf; auto; cbn [c_holds inflight left stopping counted]; auto; try lia.
        intros X [Y|Y]; [|discriminate]. apply ID; auto.
    - destruct (queue s) as [|m rest] eqn:Q; [cbn in ILf; lia|]. injection E as <-. eexists. split; [reflexivity|].
      constructor; unf; auto; cbn [c_holds inflight left stopping counted] in *; auto.
      + cbn in ILf. lia.
      + intros X [Y|Y]; [|discriminate]. specialize (ID eq_refl (or_introl Y)). cbn [length] in *. lia.
    - injection E as <-. eexists. split; [reflexivity|]. constructor; unf; auto; cbn [c_holds inflight left stopping counted]; auto.
      + destruct (mutex s) as [[|q]|].
        * destruct IL as [A B]. split; auto.
        * destruct IL as (A & B & C'). discriminate.
        * destruct IL as [A B]. discriminate.
      + intros X [Y|Y]; [|discriminate]. apply ID; auto.
    - assert (AC : exists d, active (hist s) = Some d /\ base_dest (base s) = Some d) by (destruct (own s); exact IA).
      destruct AC as (d & A1 & A2). rewrite A2 in E. injection E as <-. eexists. split; [reflexivity|].
      constructor; unf; auto; cbn [c_holds inflight left stopping counted]; auto; try trace.
      + cbn [written inserted]. rewrite <- IQ, <- !app_assoc. reflexivity.
      + intros X [Y|Y]; [|discriminate]. specialize (ID eq_refl (or_introl Y)). cbn [must written length] in *. rewrite app_length. cbn [length]. lia.
      + apply dest_keep; [exact A1|assumption].
    - injection E as <-. eexists. split; [reflexivity|]. destruct stop; constructor; unf; auto; cbn [c_holds inflight left stopping counted]; auto; try discriminate.
  Qed.

  Lemma inv_owner c fs s s' : Inv s -> step_owner c fs s = Some s' -> Inv s'.
  Proof.
    intros [IL IQ ILf IP IO IS IM ID IA IJ IW] E. unfold step_owner in E.
    destruct (own s) as [|c'|c'|c'|c'| | |] eqn:O; try discriminate.
    - injection E as <-. constructor; unf; auto.
    - injection E as <-. destruct (interrupted s) eqn:I; (constructor; unf; auto); destruct (cons s); auto; try congruence; intros X; specialize (IS X); congruence.
    - injection E as <-.
      assert (NS : stopping (cons s) = false).
      { destruct (stopping (cons s)) eqn:S; [|reflexivity]. specialize (IS eq_refl). destruct (cons s); try contradiction; congruence. }
      constructor; unf; auto; try trace.
      + destruct (cons s); auto.
      + intros X [Y|Y]; [congruence|]. rewrite Y in IO. contradiction.
    - destruct (cons s) eqn:C; try discriminate. injection E as <-. cbn in *.
      constructor; unf; auto; cbn [c_holds inflight left stopping counted]; auto; try discriminate.
      + intros later mid before E NR. apply cons_split in E. destruct E as [(_ & _ & E)|(l & _ & E)]; [|eapply IJ; eauto].
        specialize (ID eq_refl (or_introl eq_refl)). rewrite <- E in ID. rewrite must_split in ID by assumption. lia.
      + apply dest_keep; [exact I|assumption].
    - assert (C : cons s = CNone) by (destruct (cons s); try contradiction; reflexivity). rewrite C in *. destruct c' as [n|f|].
      + injection E as <-. constructor; unf; rewrite ?C; auto; try trace. exists (ToStream n). split; reflexivity.
      + unfold base_init_file in E. destruct (ofs_file (base s)) as [g|] eqn:OF; [|destruct fs]; cbn [fst snd] in E; injection E as <-; constructor; unf; rewrite ?C; auto; try trace.
        exists (ToFile f). split; reflexivity.
      + injection E as <-. constructor; unf; rewrite ?C; auto; try trace.
    - assert (C : cons s = CNone) by (destruct (cons s); try contradiction; reflexivity). rewrite C in *. injection E as <-. constructor; unf; rewrite ?C; auto; try discriminate.
    - assert (C : cons s = CNone) by (destruct (cons s); try contradiction; reflexivity). rewrite C in *. injection E as <-.
      constructor; unf; cbn [c_holds inflight left stopping counted]; auto; try discriminate.
  Qed.

  Lemma inv_run : forall sched s, Inv s -> exists s', run sched s = Ok s' /\ Inv s'.
  Proof.
    induction sched as [|a sched IH]; intros s H; [exists s; split; [reflexivity|exact H]|]. cbn [run].
    destruct (step a s) as [o|] eqn:E; [|apply IH, H]. assert (X : exists s', o = Ok s' /\ Inv s').
    { destruct a as [p m| |c fs]; cbn [step] in E.
      - destruct (step_producer p m s) as [s'|] eqn:E'; [|discriminate]. injection E as <-. exists s'. split; [reflexivity|]. eapply inv_producer; eauto.
      - eapply inv_consumer; eauto.
      - destruct (step_owner c fs s) as [s'|] eqn:E'; [|discriminate]. injection E as <-. exists s'. split; [reflexivity|]. eapply inv_owner; eauto. }
    destruct X as (s' & -> & HI). cbn [bind]. apply IH, HI.
  Qed.

  Lemma reach_inv sched s0 s : constructed s0 -> run sched s0 = Ok s -> Inv s.
  Proof. intros C E. destruct (inv_run sched s0 (inv_initial s0 C)) as (s' & E' & I). rewrite E in E'. injection E' as ->. exact I. Qed.

  (** ** theorems *)
  (** no schedule leads to undefined behaviour *)
  Theorem no_undefined (s0 : lst) sched : constructed s0 -> exists s, run sched s0 = Ok s.
  Proof. intros C. destruct (inv_run sched s0 (inv_initial s0 C)) as (s' & E' & I). eauto. Qed.
  (** in order of insertion, each at most once *)
  Theorem in_order (s0 : lst) sched s : constructed s0 -> run sched s0 = Ok s -> exists rest, inserted (hist s) = written (hist s) ++ rest.
  Proof. intros C E. destruct (reach_inv _ _ _ C E). eexists. symmetry. exact i_queue0. Qed.
  (** inserted before the request: written when the thread has been joined *)
  Theorem nothing_lost (s0 : lst) sched s later mid before : constructed s0 -> run sched s0 = Ok s ->
    hist s = later ++ EJoined :: mid ++ ERequest :: before -> no_request mid ->
    length (inserted before) <= length (written (mid ++ ERequest :: before)) /\
    firstn (length (inserted before)) (written (mid ++ ERequest :: before)) = inserted before.
  Proof.
    intros C E H NR. destruct (reach_inv _ _ _ C E) as [IL IQ ILf IP IO IS IM ID IA IJ IW]. pose proof (IJ later mid before H NR) as L. split; [exact L|].
    assert (WP : forall x y : list event, exists r, written (x ++ y) = written y ++ r).
    { induction x as [|e x IHx]; intros y; [exists []; symmetry; apply app_nil_r|]. destruct (IHx y) as [r Hr]. destruct e; cbn [app written]; try (exists r; exact Hr).
      exists (r ++ [m]). rewrite Hr, app_assoc. reflexivity. }
    assert (IP' : forall x y : list event, exists r, inserted (x ++ y) = inserted y ++ r).
    { induction x as [|e x IHx]; intros y; [exists []; symmetry; apply app_nil_r|]. destruct (IHx y) as [r Hr]. destruct e; cbn [app inserted]; try (exists r; exact Hr).
      exists (r ++ [m]). rewrite Hr, app_assoc. reflexivity. }
    set (t := mid ++ ERequest :: before) in *.
    destruct (WP (later ++ [EJoined]) t) as [r Hr]. destruct (IP' (later ++ EJoined :: mid ++ [ERequest]) before) as [q Hq].
    assert (E1 : hist s = (later ++ [EJoined]) ++ t) by (rewrite H, <- app_assoc; reflexivity).
    assert (E2 : hist s = (later ++ EJoined :: mid ++ [ERequest]) ++ before) by (rewrite H; unfold t; rewrite <- !app_assoc; cbn; rewrite <- app_assoc; reflexivity).
    rewrite E1 in IQ at 1. rewrite E2 in IQ at 1. rewrite Hr, Hq in IQ. rewrite <- app_assoc in IQ.
    apply (f_equal (firstn (length (inserted before)))) in IQ. rewrite !firstn_app, firstn_all, Nat.sub_diag, firstn_O, app_nil_r in IQ.
    replace (length (inserted before) - length (written t)) with 0 in IQ by lia. rewrite firstn_O, app_nil_r in IQ. exact IQ.
  Qed.
  (** every message goes to the output in use, and only while the thread is running *)
  Theorem to_active (s0 : lst) sched s later d m before : constructed s0 -> run sched s0 = Ok s -> hist s = later ++ EWrite d m :: before -> active before = Some d.
  Proof. intros C E H. destruct (reach_inv _ _ _ C E). eapply i_dest0, H. Qed.
  (** at most one thread is between lock and unlock *)
  Theorem exclusive (s0 : lst) sched s : constructed s0 -> run sched s0 = Ok s ->
    (forall p q, p_holds (prod s p) = true -> p_holds (prod s q) = true -> p = q) /\ (forall p, p_holds (prod s p) = true -> c_holds (cons s) = false).
  Proof.
    intros C E. destruct (reach_inv _ _ _ C E) as [IL _ _ _ _ _ _ _ _ _ _]. destruct (mutex s) as [[|r]|].
    - destruct IL as [A B]. split; intros; congruence.
    - destruct IL as (A & B & D). split; [|auto]. intros p q P Q. destruct (Nat.eq_dec p r) as [->|N]; [|rewrite D in P by assumption; discriminate].
      destruct (Nat.eq_dec q r) as [->|N]; [reflexivity|rewrite D in Q by assumption; discriminate].
    - destruct IL as [A B]. split; intros; congruence.
  Qed.

  (** ** shutdown does not hang *)
  Definition mu (s : lst) : nat :=
    let q := length (queue s) in
    let extra (stop : bool) (k : nat) := if stop then k else k + 4 * q + 20 in
    match cons s with
    | CTop _ => 4 * q + 7
    | CLock stop => extra stop (4 * q + 6)
    | CSize stop => extra stop (4 * q + 5)
    | CUnlock stop n => extra stop (4 * n + 4)
    | CTest stop n => extra stop (4 * n + 3)
    | CPopLock stop n => extra stop (4 * n + 2)
    | CPop stop n => extra stop (4 * n + 1)
    | CPopUnlock stop n _ => extra stop (4 * n + 4)
    | CWrite stop n _ => extra stop (4 * n + 3)
    | CFlush stop => extra stop 1
    | CDone | CNone => 0
    end.
  Lemma consumer_moves s c : Inv s -> own s = OJoin c -> (mutex s = None \/ mutex s = Some Consumer) -> cons s <> CDone ->
    exists s', step_consumer s = Some (Ok s') /\ mu s' < mu s /\ own s' = OJoin c /\ (mutex s' = None \/ mutex s' = Some Consumer).
  Proof.
    intros H O Mx ND. pose proof (inv_consumer s) as IC. destruct H as [IL IQ ILf IP IO IS IM ID IA IJ IW]. rewrite O in *.
    assert (ML : c_holds (cons s) = false -> mutex s = None) by (destruct Mx as [Mx|Mx]; rewrite Mx in *; [auto|destruct IL; congruence]).
    assert (INT : interrupted s = true) by (destruct (cons s); try contradiction; exact IO).
    unfold step_consumer in *. destruct (cons s) as [|stop|stop|stop|stop n|stop n|stop n|stop n|stop n m|stop n m|stop|] eqn:C; try contradiction; cbn [c_holds left inflight] in *.
    - eexists. split; [reflexivity|]. unfold mu. unf. rewrite C, INT. cbn. split; [lia|auto].
    - rewrite (ML eq_refl). eexists. split; [reflexivity|]. unfold mu. unf. rewrite C. split; [destruct stop; lia|auto].
    - eexists. split; [reflexivity|]. unfold mu. unf. rewrite C. split; [destruct stop; lia|auto].
    - eexists. split; [reflexivity|]. unfold mu. unf. rewrite C. split; [destruct stop; lia|auto].
    - eexists. split; [reflexivity|]. unfold mu. unf. rewrite C. split; [destruct n, stop; lia|auto].
    - destruct n as [|n].
      + eexists. split; [reflexivity|]. unfold mu. unf. rewrite C. split; [destruct stop; lia|auto].
      + rewrite (ML eq_refl). eexists. split; [reflexivity|]. unfold mu. unf. rewrite C. split; [destruct stop; lia|auto].
    - destruct (queue s) as [|m rest] eqn:Q; [cbn in ILf; lia|]. eexists. split; [reflexivity|]. unfold mu. unf. rewrite C, Q. cbn [length]. split; [destruct stop; lia|auto].
    - eexists. split; [reflexivity|]. unfold mu. unf. rewrite C. split; [destruct stop; lia|auto].
    - destruct IA as (d & A1 & A2). rewrite A2. eexists. split; [reflexivity|]. unfold mu. unf. rewrite C. split; [destruct stop; lia|auto].
    - eexists. split; [reflexivity|]. unfold mu. unf. rewrite C. split; [destruct stop; lia|auto].
  Qed.
  Lemma consumer_finishes c : forall k s, mu s <= k -> Inv s -> own s = OJoin c -> (mutex s = None \/ mutex s = Some Consumer) ->
    exists sched s', run sched s = Ok s' /\ own s' = OInit c.
  Proof.
    assert (FIN : forall s, Inv s -> own s = OJoin c -> cons s = CDone -> exists sched s', run sched s = Ok s' /\ own s' = OInit c).
    { intros s H O C. exists [AOwner c true]. eexists. cbn [run step]. unfold step_owner. rewrite O, C. cbn. split; reflexivity. }
    assert (DEC : forall s : lst, {cons s = CDone} + {cons s <> CDone}) by (intros s; destruct (cons s); auto; right; discriminate).
    induction k as [|k IH]; intros s L H O Mx; destruct (DEC s) as [C|C]; try (apply FIN; assumption); destruct (consumer_moves s c H O Mx C) as (s' & E & MU & O' & Mx'); [lia|].
    destruct (inv_consumer s (Ok s') H E) as (s'' & E'' & H'). injection E'' as <-. destruct (IH s' ltac:(lia) H' O' Mx') as (sched & s'' & R & O'').
    exists (AConsumer :: sched), s''. cbn [run step]. rewrite E. cbn [bind]. auto.
  Qed.
  Theorem shutdown_can_finish (s0 : lst) sched s c (dummy : M) : constructed s0 -> run sched s0 = Ok s -> own s = OJoin c -> exists sched' s', run sched' s = Ok s' /\ own s' = OInit c.
  Proof.
    intros C E O. pose proof (reach_inv _ _ _ C E) as H.
    destruct (mutex s) as [[|p]|] eqn:Mx; try (apply (consumer_finishes c (mu s) s); auto; fail).
    pose proof (i_lock s H) as IL. rewrite Mx in IL. destruct IL as (A & B & D).
    assert (U : forall s1, Inv s1 -> own s1 = OJoin c -> prod s1 p = PUnlock -> exists sched' s', run sched' s1 = Ok s' /\ own s' = OInit c).
    { intros s1 H1 O1 P1. assert (E1 : step_producer p dummy s1 = Some (mkLst (base s1) (queue s1) None (interrupted s1) (cons s1) (own s1) (set_prod s1 p POut) (hist s1)))
        by (unfold step_producer; rewrite P1; reflexivity).
      pose proof (inv_producer _ _ _ _ H1 E1) as H2. destruct (consumer_finishes c _ _ (le_n _) H2 ltac:(exact O1) ltac:(left; reflexivity)) as (sc & s' & R & O').
      exists (AProducer p dummy :: sc), s'. cbn [run step]. rewrite E1. cbn [option_map bind]. auto. }
    destruct (prod s p) as [|m|m|] eqn:P; try discriminate.
    - assert (E1 : step_producer p dummy s = Some (mkLst (base s) (queue s ++ [m]) (mutex s) (interrupted s) (cons s) (own s) (set_prod s p PUnlock) (EInsert m :: hist s)))
        by (unfold step_producer; rewrite P; reflexivity).
      pose proof (inv_producer _ _ _ _ H E1) as H2. destruct (U _ H2 O) as (sc & s' & R & O'); [unf; rewrite Nat.eqb_refl; reflexivity|].
      exists (AProducer p dummy :: sc), s'. cbn [run step]. rewrite E1. cbn [option_map bind]. auto.
    - apply U; assumption.
  Qed.
End Facts.

(** a logger which has not been given an output: its messages are dropped by the destructor *)
Theorem uninitialised_lost : exists sched s, run sched (initial OIdle) = Ok s /\ own s = ODead /\ inserted (hist s) = [7] /\ written (hist s) = [].
Proof.
  exists [AProducer 0 7; AProducer 0 7; AProducer 0 7; AProducer 0 7; AOwner CallDestroy true; AOwner CallDestroy true; AOwner CallDestroy true].
  eexists. split; [vm_compute; reflexivity|]. repeat split.
Qed.
(** inserted after the request: may stay in the queue (it is written to the next output if there is one) *)
Theorem late_message_lost : exists sched s, run sched (initial (OInit (CallStream 3))) = Ok s /\ own s = ODead /\ inserted (hist s) = [7] /\ written (hist s) = [].
Proof.
  exists ([AOwner CallDestroy true; AOwner CallDestroy true; AOwner CallDestroy true] ++ repeat (AOwner CallDestroy true) 3 ++ repeat AConsumer 5 ++ repeat (AProducer 0 7) 4 ++ repeat (AOwner CallDestroy true) 2).
  eexists. split; [vm_compute; reflexivity|]. repeat split.
Qed.

(** ** C48 *)
Section BasicFacts.
  Context {M : Type}.
  (** the second initialisation with a file fails, whatever has happened in between *)
  Lemma file_stays : forall (ops : list (basic_op M)) l l' f, ofs_file (bbase l) = Some f -> basic_run ops l = Ok l' -> ofs_file (bbase l') = Some f.
  Proof.
    induction ops as [|op ops IH]; intros l l' f F E; [cbn in E; injection E as <-; exact F|].
    cbn [basic_run] in E. destruct op as [s|g fs|m]; cbn [basic_step bind] in E.
    - eapply IH; [|exact E]. exact F.
    - unfold base_init_file in E. rewrite F in E. cbn in E. eapply IH; [|exact E]. reflexivity.
    - destruct (base_dest (bbase l)); [|discriminate]. cbn in E. eapply IH; [|exact E]. exact F.
  Qed.
  Theorem second_file_fails (ops : list (basic_op M)) f g fs l l' : basic_step (BFile f true) basic_default = Ok l -> basic_run ops l = Ok l' ->
    exists l'', basic_step (BFile g fs) l' = Ok l'' /\ bthrown l'' = S (bthrown l') /\ ofs_file (bbase l'') = Some f.
  Proof.
    intros E R. cbn in E. injection E as <-. apply file_stays with (f := f) in R; [|reflexivity]. cbn [basic_step]. unfold base_init_file. rewrite R. cbn. eauto.
  Qed.
  Theorem second_file_refuted (m : M) : exists l, basic_run [BFile "a" true; BFile "b" true; BLog m] basic_default = Ok l /\ boutput l = [(Nowhere, m)].
  Proof. eexists. split; reflexivity. Qed.
  (** at most one file: every message goes to the output given last *)
  Definition good (l : basic M) (cur : option dest) (nf : nat) :=
    base_dest (bbase l) = cur /\ (nf = 0 \/ (ofs_file (bbase l) = None /\ nf = 1)) /\ ofs_fail (bbase l) = false /\
    (output_stream (bbase l) = Some OwnFile -> ofs_file (bbase l) <> None).
  Lemma basic_ideal : forall (ops : list (basic_op M)) l cur nf, files ops <= nf -> all_open ops -> good l cur nf -> cur <> None ->
    exists l', basic_run ops l = Ok l' /\ boutput l' = boutput l ++ ideal cur ops /\ bthrown l' = bthrown l.
  Proof.
    induction ops as [|op ops IH]; intros l cur nf F A (D & N & FL & OW) C; [exists l; cbn; rewrite app_nil_r; auto|].
    cbn [basic_run]. destruct op as [s|g fs|m]; cbn [basic_step bind files all_open ideal] in *.
    - apply (IH (mkBasic (base_init_stream s (bbase l)) (boutput l) (bthrown l)) (Some (ToStream s)) nf); auto; [|discriminate]. split; [reflexivity|]. cbn. split; [exact N|]. split; [exact FL|discriminate].
    - destruct A as [-> A]. destruct N as [N|[N1 N2]]; [lia|]. unfold base_init_file. rewrite N1. cbn [fst snd].
      apply (IH (mkBasic (mkBase true (Some g) false (Some OwnFile)) (boutput l) (bthrown l)) (Some (ToFile g)) 0); auto; try lia; [|discriminate]. split; [reflexivity|]. cbn. split; [auto|]. split; [reflexivity|discriminate].
    - rewrite D. destruct cur as [d|]; [|congruence]. cbn [bind].
      destruct (IH (mkBasic (bbase l) (boutput l ++ [(d, m)]) (bthrown l)) (Some d) nf F A ltac:(split; auto) C) as (l' & R & O & T).
      exists l'. split; [exact R|]. cbn in *. rewrite O, <- app_assoc. auto.
  Qed.
  (** the first operation gives the logger an output; at most one initialisation with a file *)
  Theorem one_file (ops : list (basic_op M)) : match ops with BStream _ :: _ | BFile _ _ :: _ => True | _ => False end -> all_open ops -> files ops <= 1 ->
    exists l, basic_run ops basic_default = Ok l /\ boutput l = ideal None ops /\ bthrown l = 0.
  Proof.
    intros S A F. destruct ops as [|[s|g fs|m] ops]; try contradiction; cbn [basic_run basic_step bind ideal files all_open] in *.
    - apply (basic_ideal ops (mkBasic (base_init_stream s base_default) [] 0) (Some (ToStream s)) 1); auto; [|discriminate].
      split; [reflexivity|]. cbn. split; [auto|]. split; [reflexivity|discriminate].
    - destruct A as [-> A]. cbn. apply (basic_ideal ops (mkBasic (mkBase true (Some g) false (Some OwnFile)) [] 0) (Some (ToFile g)) 0); auto; [lia| |discriminate].
      split; [reflexivity|]. cbn. split; [auto|]. split; [reflexivity|discriminate].
  Qed.
  (** a stream after a file, and no output *)
  Theorem no_output_undefined (m : M) : basic_run [BLog m] basic_default = UB.
  Proof. reflexivity. Qed.
End BasicFacts.
