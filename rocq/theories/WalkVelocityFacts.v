(** * Reference velocities along the preview horizon (C102) *)
From Coq Require Import String List Arith Bool Reals Sorted Lia.
From Verif Require Import Base BaseFacts StanceFSM StanceSpec StanceFSMFacts StanceTimeFacts WalkPreview WalkPreviewSpec WalkPreviewFacts WalkPreviewFacts2 WalkHeadingFacts WalkPreviewFacts3.
Import ListNotations.
Local Open Scope nat_scope.

Definition optional {A} (P : A -> Prop) (o : option A) : Prop := match o with Some a => P a | None => True end.
Lemma set_nth_all {A} (P : A -> Prop) l : forall i a, Forall (optional P) l -> P a -> Forall (optional P) (set_nth l i a).
Proof. induction l as [|x l IH]; intros [|i] a F Pa; cbn [set_nth]; inversion F; subst; constructor; auto. Qed.
Lemma fill_all {A} (P : A -> Prop) n : forall (l : list (option A)) i a, Forall (optional P) l -> P a -> Forall (optional P) (fill l i n a).
Proof. induction n as [|n IH]; intros l i a F Pa; cbn [fill]; [exact F|]. apply IH; [apply set_nth_all; assumption|exact Pa]. Qed.

(** an interval refers to its state, and takes the velocity from it or from the transitional double support before it *)
Definition refers (l : list stance) (iv : interval) : Prop :=
  (iv_velocity iv = 0 /\ iv_state iv = 0 /\ exists s, nth_error l 0 = Some s /\ is_tds (st_type s) = false) \/
  (S (iv_velocity iv) = iv_state iv /\ exists s, nth_error l (iv_velocity iv) = Some s /\ is_tds (st_type s) = true).
Lemma loop_refers N T tds l : forall n rest wi idx ivs steps r, length rest <= n -> rest = skipn wi l -> Forall (optional (refers l)) ivs ->
  form_loop N T tds wi rest idx ivs steps = Ok r -> Forall (optional (refers l)) (fst r).
Proof.
  induction n as [|n IH]; intros rest wi idx ivs steps r L E F H.
  - destruct rest; [|cbn in L; lia]. cbn [form_loop] in H. destruct (N <=? idx); [|discriminate]. injection H as <-. exact F.
  - destruct rest as [|s rest]; cbn [form_loop] in H; (destruct (N <=? idx); [injection H as <-; exact F|]); [discriminate|].
    assert (Hw : nth_error l wi = Some s /\ rest = skipn (S wi) l).
    { clear -E. revert l E. induction wi as [|wi IH]; intros l E; [cbn [skipn] in E; subst l; split; reflexivity|]. destruct l as [|x l]; [discriminate E|]. cbn [skipn] in E. apply IH in E. exact E. }
    destruct Hw as [Hs Er]. cbn [length] in L.
    destruct (Nat.eqb_spec wi 0) as [->|W].
    + destruct (is_tds (st_type s)) eqn:Ts.
      * destruct rest as [|s2 r2]; [discriminate|]. cbn [length] in L.
        assert (Er2 : r2 = skipn 2 l) by (destruct l as [|x [|y l]]; try discriminate Er; cbn [skipn] in Er |- *; injection Er as _ <-; reflexivity).
        eapply (IH r2 2); [lia|exact Er2| |exact H]. apply fill_all; [apply set_nth_all; [exact F|]|]; right; (split; [reflexivity|exists s; split; [exact Hs|exact Ts]]).
      * eapply (IH rest 1); [lia|exact Er| |exact H]. apply fill_all; [apply set_nth_all; [exact F|]|]; left; (split; [reflexivity|split; [reflexivity|exists s; split; [exact Hs|exact Ts]]]).
    + destruct (is_tds (st_type s)) eqn:Ts; [|discriminate]. destruct rest as [|s2 r2]; [discriminate|]. cbn [length] in L.
      assert (Er2 : r2 = skipn (S (S wi)) l).
      { clear -Er. revert l Er. induction wi as [|wi IH]; intros l Er; destruct l as [|x l]; try discriminate Er; [cbn [skipn] in Er; subst l; reflexivity|]. change (skipn (S (S (S wi))) (x :: l)) with (skipn (S (S wi)) l). apply IH. exact Er. }
      eapply (IH r2 (S (S wi))); [lia|exact Er2| |exact H]. apply fill_all; [apply set_nth_all; [exact F|]|]; right; (split; [reflexivity|exists s; split; [exact Hs|exact Ts]]).
Qed.

(** the velocity of a walk state *)
Lemma state_velocity inc h s n h' w : preview_state inc h s n = Ok (h', w) -> ws_stance w = s /\
  match st_type s with
  | LSS | RSS => ws_vel w = VelWalk
  | DS => subtype s = FIRST /\ ws_vel w = VelFirst \/ subtype s = LAST /\ ws_vel w = VelLast
  | TDS => exists t, n = Some t /\ ws_vel w = match t with DS => VelLast | _ => VelWalk end
  | ST_UNDEFINED => False
  end.
Proof.
  unfold preview_state. intros H. destruct (st_type s) eqn:Ts.
  all: try solve [discriminate H].
  all: try solve [apply bind_ok in H; destruct H as (fd & _ & H); injection H as _ <-; split; reflexivity].
  2:{ destruct n as [t|]; [|discriminate H]. destruct t, (prev_nontds s); injection H as _ <-; (split; [reflexivity|eexists; split; reflexivity]). }
  - destruct (subtype s) eqn:Sb; try discriminate H; apply bind_ok in H; destruct H as (fd & _ & H); injection H as _ <-; (split; [reflexivity|]); [left|right]; split; reflexivity.
Qed.
Lemma states_velocity inc : forall l h ws k w, preview_states inc h l = Ok ws -> nth_error ws k = Some w ->
  exists h1 h2, preview_state inc h1 (ws_stance w) (option_map (fun x => st_type (ws_stance x)) (nth_error ws (S k))) = Ok (h2, w).
Proof.
  induction l as [|s l IH]; intros h ws k w H K; cbn [preview_states] in H; [injection H as <-; destruct k; discriminate K|].
  apply bind_ok in H. destruct H as ([h1 w1] & P & H). apply bind_ok in H. destruct H as (ws1 & Q & H). injection H as <-.
  destruct k as [|k]; cbn [nth_error] in K |- *; [|exact (IH h1 ws1 k w Q K)]. injection K as <-.
  pose proof (proj1 (state_velocity _ _ _ _ _ _ P)) as Es. rewrite Es. exists h, h1. rewrite <- P. f_equal.
  rewrite <- (preview_states_stances _ _ _ _ Q). destruct ws1; reflexivity.
Qed.

Theorem form_velocity f m ly ry inc s h : form f m ly ry inc s = Finished (Ok (Some h)) -> forall i iv w,
  interval_at h i iv -> nth_error (h_states h) (iv_state iv) = Some w ->
  exists v, nth_error (h_states h) (iv_velocity iv) = Some v /\
    (iv_velocity iv = iv_state iv /\ iv_state iv = 0 \/ S (iv_velocity iv) = iv_state iv /\ st_type (ws_stance v) = TDS) /\
    ws_vel v = match st_type (ws_stance w), subtype (ws_stance w) with
               | DS, FIRST => if iv_velocity iv =? iv_state iv then VelFirst else VelLast
               | DS, _ => VelLast
               | _, _ => VelWalk
               end.
Proof.
  intros H i iv w Hi Hw. pose proof H as H'. apply form_inv in H'. destruct H' as (l & b & P & HS & Ne & Al & K).
  pose proof (preview_states_stances _ _ _ _ HS) as El.
  assert (Rf : refers l iv).
  { destruct K as (_ & K). apply (loop_refers _ _ _ l (length l) l 0) in K; [|lia|reflexivity|].
    - cbn [fst] in K. rewrite Forall_forall in K. assert (X : In (Some iv) (h_intervals h)) by (eapply nth_error_In; exact Hi). exact (K _ X).
    - rewrite Forall_forall. intros x X. apply repeat_spec in X. subst x. exact I. }
  assert (L : forall k x, nth_error (h_states h) k = Some x -> nth_error l k = Some (ws_stance x)).
  { intros k x E. rewrite <- El, nth_error_map, E. reflexivity. }
  destruct Rf as [(V0 & S0 & x & X1 & X2)|(SV & x & X1 & X2)].
  - exists w. rewrite V0, S0 in *. split; [exact Hw|]. split; [left; split; reflexivity|].
    pose proof (L _ _ Hw) as Lw. rewrite X1 in Lw. injection Lw as ->.
    destruct (states_velocity _ _ _ _ _ _ HS Hw) as (h1 & h2 & Q). apply state_velocity in Q. destruct Q as [_ Q].
    destruct (st_type (ws_stance w)); [contradiction| |exact Q|exact Q|discriminate X2]. destruct Q as [[-> ->]|[-> ->]]; reflexivity.
  - assert (Hv : exists v, nth_error (h_states h) (iv_velocity iv) = Some v).
    { destruct (nth_error (h_states h) (iv_velocity iv)) as [v|] eqn:E; [eauto|]. apply nth_error_None in E. rewrite <- El, nth_error_map in X1.
      assert (nth_error (h_states h) (iv_velocity iv) = None) as E' by (apply nth_error_None; exact E). rewrite E' in X1. discriminate X1. }
    destruct Hv as (v & Hv). pose proof (L _ _ Hv) as Lv. rewrite X1 in Lv. injection Lv as ->. exists v. split; [exact Hv|].
    assert (Tv : st_type (ws_stance v) = TDS) by (destruct (st_type (ws_stance v)); try discriminate X2; reflexivity).
    split; [right; split; assumption|]. destruct (states_velocity _ _ _ _ _ _ HS Hv) as (h1 & h2 & Q). apply state_velocity in Q. destruct Q as [_ Q]. rewrite Tv in Q.
    destruct Q as (t & Q1 & Q2). rewrite SV, Hw in Q1. cbn [option_map] in Q1. injection Q1 as <-. rewrite Q2.
    destruct (Nat.eqb_spec (iv_velocity iv) (iv_state iv)); [lia|]. destruct (st_type (ws_stance w)), (subtype (ws_stance w)); reflexivity.
Qed.
