(** * Proofs about the solution guess (C61) *)
From Coq Require Import String List Arith Bool Reals Lia.
From Verif Require Import Base Solution SolutionSpec SolutionFacts MpcGuess MpcGuessSpec.
Import ListNotations.

Lemma loc_pepper N : getSolutionPartLocation (structure_pepper N) BASE_VEL = mkLoc 0 (N * 2) /\ getSolutionPartLocation (structure_pepper N) BODY_JERK = mkLoc (N * 2) (N * 2) /\
  getNumberOfVariables (structure_pepper N) = (N * 2 + N * 2)%nat /\ isNonEmpty (structure_pepper N) = true.
Proof. repeat split; reflexivity. Qed.
Lemma loc_wpg N M : getSolutionPartLocation (structure_wpg N M) COP = mkLoc 0 (N * 2) /\ getSolutionPartLocation (structure_wpg N M) FOOTPOS = mkLoc (N * 2) (M * 2) /\
  getNumberOfVariables (structure_wpg N M) = (N * 2 + M * 2)%nat /\ isNonEmpty (structure_wpg N M) = true.
Proof. repeat split; reflexivity. Qed.

Lemma getData_at st pre mid post : getData (mkSolution st (pre ++ mid ++ post)) (mkLoc (length pre) (length mid)) = Ok mid.
Proof.
  unfold getData, assert_then, checkLength, loc_end. cbn [sol_x offset len]. rewrite !app_length.
  destruct (Nat.leb_spec (length pre) (length pre + length mid)); [|lia]. destruct (Nat.leb_spec (length pre + length mid) (length pre + (length mid + length post))); [|lia].
  cbn [andb]. unfold segment. rewrite skipn_app, skipn_all, Nat.sub_diag. cbn [skipn app]. rewrite firstn_app, Nat.sub_diag, firstn_O, app_nil_r, firstn_all. reflexivity.
Qed.
Lemma setData_at st pre mid post d : length d = length mid ->
  setData (mkSolution st (pre ++ mid ++ post)) (mkLoc (length pre) (length mid)) d = Ok (mkSolution st (pre ++ d ++ post)).
Proof.
  intros H. unfold setData, assert_then, checkLength, loc_end. cbn [sol_x offset len sol_structure]. rewrite !app_length.
  destruct (Nat.leb_spec (length pre) (length pre + length mid)); [|lia]. destruct (Nat.leb_spec (length pre + length mid) (length pre + (length mid + length post))); [|lia].
  cbn [andb]. rewrite H, Nat.eqb_refl. unfold copy_into. rewrite !app_length, H. destruct (Nat.leb_spec (length pre + length mid) (length pre + (length mid + length post))); [|lia].
  cbn [bind]. f_equal. f_equal. rewrite firstn_app, Nat.sub_diag, firstn_O, app_nil_r, firstn_all. f_equal. f_equal.
  rewrite app_assoc, skipn_app, app_length. rewrite skipn_all2 by (rewrite app_length; lia). cbn [app].
  replace (length pre + length mid - (length pre + length mid))%nat with 0%nat by lia. reflexivity.
Qed.
Lemma setData_wrong s l d : len l <> length d -> setData s l d = Throw.
Proof. intros H. unfold setData, assert_then. destruct (checkLength _ _); [|reflexivity]. destruct (Nat.eqb_spec (len l) (length d)); [contradiction|reflexivity]. Qed.

Lemma zeros_len n : length (zeros n) = n.
Proof. apply repeat_length. Qed.
Lemma zeros_add a b : zeros (a + b) = zeros a ++ zeros b.
Proof. apply repeat_app. Qed.

(** copying one shifted part between solutions in which it starts after [pre] and [pre'] *)
Lemma copy_shifted_at id st st' pre pre' x post post' n : length x = n -> (2 <= n)%nat ->
  getSolutionPartLocation st id = mkLoc (length pre) n -> getSolutionPartLocation st' id = mkLoc (length pre') n ->
  copy_shifted (mkSolution st (pre ++ zeros n ++ post)) (mkSolution st' (pre' ++ x ++ post')) id =
  Ok (mkSolution st (pre ++ shifted x ++ post)).
Proof.
  intros Hx Hn E E'. unfold copy_shifted, without_last2, without_first2, assert_then. cbn [sol_structure]. rewrite E, E'. cbn [offset len].
  destruct (Nat.leb_spec 2 n); [|lia]. cbn [bind]. unfold copy_part.
  destruct x as [|a [|b x]]; cbn [length] in Hx; try lia.
  replace (pre' ++ (a :: b :: x) ++ post') with ((pre' ++ [a; b]) ++ x ++ post') by (rewrite <- app_assoc; reflexivity).
  replace (mkLoc (length pre' + 2) (n - 2)) with (mkLoc (length (pre' ++ [a; b])) (length x)) by (rewrite app_length; cbn; f_equal; lia).
  rewrite getData_at. cbn [bind].
  replace n with (length x + 2)%nat by lia. rewrite zeros_add. rewrite <- app_assoc.
  replace (length x + 2 - 2)%nat with (length (zeros (length x))) by (rewrite zeros_len; lia).
  rewrite setData_at by (rewrite !zeros_len; reflexivity). unfold shifted. cbn [skipn]. rewrite <- !app_assoc. reflexivity.
Qed.
Lemma copy_shifted_wrong id guess old : len (getSolutionPartLocation (sol_structure guess) id) <> len (getSolutionPartLocation (sol_structure old) id) ->
  copy_shifted guess old id = Throw.
Proof.
  intros H. unfold copy_shifted, without_last2, without_first2, assert_then.
  destruct (Nat.leb_spec 2 (len (getSolutionPartLocation (sol_structure guess) id))); [|reflexivity]. cbn [bind].
  destruct (Nat.leb_spec 2 (len (getSolutionPartLocation (sol_structure old) id))); [|reflexivity]. cbn [bind]. unfold copy_part.
  unfold getData at 1. unfold assert_then. destruct (checkLength _ _) eqn:C; [|reflexivity]. cbn [bind]. apply setData_wrong.
  unfold checkLength, loc_end in C. cbn [offset len] in *. apply andb_true_iff in C. destruct C as [_ C]. apply Nat.leb_le in C.
  unfold segment. rewrite firstn_length, skipn_length. cbn [offset len]. lia.
Qed.

Theorem guess_pepper N base body : (0 < N)%nat -> length base = (N * 2)%nat -> length body = (N * 2)%nat ->
  guessSolution_pepper (structure_pepper N) (mkSolution (structure_pepper N) (base ++ body)) =
  Ok (mkSolution (structure_pepper N) (shifted base ++ shifted body)).
Proof.
  intros HN Hb Hd. unfold guessSolution_pepper. destruct (loc_pepper N) as (L1 & L2 & L3 & L4). cbn [sol_structure]. rewrite L3, L4. cbn [andb].
  destruct (Nat.eqb_spec (N * 2 + N * 2) 0); [lia|]. cbn [negb]. unfold sol_initialize_value. rewrite L3. fold (zeros (N * 2 + N * 2)). rewrite zeros_add.
  pose proof (copy_shifted_at BASE_VEL (structure_pepper N) (structure_pepper N) [] [] base (zeros (N * 2)) body (N * 2) Hb ltac:(lia) L1 L1) as C1.
  cbn [app] in C1. rewrite C1. cbn [bind].
  pose proof (copy_shifted_at BODY_JERK (structure_pepper N) (structure_pepper N) (shifted base) base body [] [] (N * 2) Hd ltac:(lia)) as C2.
  rewrite !app_nil_r in C2. apply C2; rewrite L2; f_equal; [|lia]. unfold shifted. rewrite app_length, skipn_length. cbn. lia.
Qed.
Theorem guess_pepper_other_length N N' base body : N <> N' -> (0 < N')%nat -> length base = (N' * 2)%nat -> length body = (N' * 2)%nat ->
  guessSolution_pepper (structure_pepper N) (mkSolution (structure_pepper N') (base ++ body)) = Throw.
Proof.
  intros HN HN' Hb Hd. unfold guessSolution_pepper. destruct (loc_pepper N') as (L1 & L2 & L3 & L4). cbn [sol_structure]. rewrite L3, L4. cbn [andb].
  destruct (Nat.eqb_spec (N' * 2 + N' * 2) 0); [lia|]. cbn [negb]. rewrite copy_shifted_wrong; [reflexivity|].
  unfold sol_initialize_value. cbn [sol_structure]. rewrite L1. destruct (loc_pepper N) as (-> & _). cbn [len]. lia.
Qed.
Theorem guess_pepper_first N x : guessSolution_pepper (structure_pepper N) (mkSolution structure_reset x) = Ok (mkSolution (structure_pepper N) (zeros (N * 2 + N * 2))).
Proof. reflexivity. Qed.

(** the walking module: [foot] is the part with the landing positions *)
Theorem guess_wpg N M M' cop foot : (0 < N)%nat -> length cop = (N * 2)%nat -> length foot = (M' * 2)%nat ->
  guessSolution_wpg (structure_wpg N M) (mkSolution (structure_wpg N M') (cop ++ foot)) =
  if (M =? M')%nat then Ok (mkSolution (structure_wpg N M) (shifted cop ++ foot))
  else if (S M =? M')%nat then Ok (mkSolution (structure_wpg N M) (shifted cop ++ skipn 2 foot))
  else if (M =? S M')%nat then Ok (mkSolution (structure_wpg N M) (shifted cop ++ foot ++ [0; 0]%R))
  else Throw.
Proof.
  intros HN Hc Hf. unfold guessSolution_wpg. destruct (loc_wpg N M) as (L1 & L2 & L3 & _). destruct (loc_wpg N M') as (K1 & K2 & K3 & K4).
  cbn [sol_structure]. rewrite K3, K4. cbn [andb]. destruct (Nat.eqb_spec (N * 2 + M' * 2) 0); [lia|]. cbn [negb].
  unfold sol_initialize_value. rewrite L3. fold (zeros (N * 2 + M * 2)). rewrite zeros_add.
  pose proof (copy_shifted_at COP (structure_wpg N M) (structure_wpg N M') [] [] cop (zeros (M * 2)) foot (N * 2) Hc ltac:(lia) L1 K1) as C1.
  cbn [app] in C1. rewrite C1. cbn [bind sol_structure]. rewrite L2, K2. cbn [offset len].
  assert (Ls : length (shifted cop) = (N * 2)%nat) by (unfold shifted; rewrite app_length, skipn_length; cbn; lia).
  destruct (Nat.eqb_spec M M') as [->|H1].
  - rewrite Nat.eqb_refl. unfold copy_part.
    pose proof (getData_at (structure_wpg N M') cop foot []) as G. rewrite app_nil_r, Hc, Hf in G. rewrite G. cbn [bind].
    pose proof (setData_at (structure_wpg N M') (shifted cop) (zeros (M' * 2)) [] foot) as P. rewrite !app_nil_r, Ls, !zeros_len in P. apply P. exact Hf.
  - destruct (Nat.eqb_spec (M' * 2) (M * 2)); [lia|]. destruct (Nat.eqb_spec (S M) M') as [<-|H2].
    + destruct (Nat.ltb_spec (M * 2) (S M * 2)); [|lia]. unfold without_first2, assert_then. cbn [offset len]. destruct (Nat.leb_spec 2 (S M * 2)); [|lia]. cbn [bind].
      unfold copy_part. destruct foot as [|a [|b foot]]; cbn [length] in Hf; try lia.
      pose proof (getData_at (structure_wpg N (S M)) (cop ++ [a; b]) foot []) as G. rewrite app_nil_r, <- app_assoc, app_length, Hc in G. cbn [app length] in G.
      replace (length foot) with (S M * 2 - 2)%nat in G by lia. rewrite G. cbn [bind skipn].
      pose proof (setData_at (structure_wpg N M) (shifted cop) (zeros (M * 2)) [] foot) as P. rewrite !app_nil_r, Ls, !zeros_len in P. apply P. lia.
    + destruct (Nat.ltb_spec (M * 2) (M' * 2)) as [Hlt|Hge].
      * destruct (Nat.eqb_spec M (S M')); [lia|]. unfold without_first2, assert_then. cbn [offset len]. destruct (Nat.leb_spec 2 (M' * 2)); [|lia]. cbn [bind].
        unfold copy_part. unfold getData, assert_then, checkLength, loc_end. cbn [sol_x offset len]. rewrite app_length, Hc, Hf.
        destruct (Nat.leb_spec (N * 2 + 2) (N * 2 + 2 + (M' * 2 - 2))); [|lia]. destruct (Nat.leb_spec (N * 2 + 2 + (M' * 2 - 2)) (N * 2 + M' * 2)); [|lia].
        cbn [andb bind]. apply setData_wrong. cbn [len]. unfold segment. rewrite firstn_length, skipn_length, app_length. lia.
      * unfold without_last2, assert_then. cbn [offset len]. destruct (Nat.leb_spec 2 (M * 2)); [|lia]. cbn [bind]. unfold copy_part.
        pose proof (getData_at (structure_wpg N M') cop foot []) as G. rewrite app_nil_r, Hc, Hf in G. rewrite G. cbn [bind].
        destruct (Nat.eqb_spec M (S M')) as [->|H3]; [|apply setData_wrong; cbn [len]; lia].
        pose proof (setData_at (structure_wpg N (S M')) (shifted cop) (zeros (M' * 2)) (zeros 2) foot) as P. rewrite <- zeros_add, Ls, zeros_len in P.
        replace (M' * 2 + 2)%nat with (S M' * 2)%nat in P by lia. replace (S M' * 2 - 2)%nat with (M' * 2)%nat by lia. apply P. exact Hf.
Qed.
Theorem guess_wpg_other_length N N' M M' cop foot : N <> N' -> (0 < N' + M')%nat -> length cop = (N' * 2)%nat -> length foot = (M' * 2)%nat ->
  guessSolution_wpg (structure_wpg N M) (mkSolution (structure_wpg N' M') (cop ++ foot)) = Throw.
Proof.
  intros HN HN' Hb Hd. unfold guessSolution_wpg. destruct (loc_wpg N' M') as (L1 & L2 & L3 & L4). cbn [sol_structure]. rewrite L3, L4. cbn [andb].
  destruct (Nat.eqb_spec (N' * 2 + M' * 2) 0); [lia|]. cbn [negb]. rewrite copy_shifted_wrong; [reflexivity|].
  unfold sol_initialize_value. cbn [sol_structure]. rewrite L1. destruct (loc_wpg N M) as (-> & _). cbn [len]. lia.
Qed.
Theorem guess_wpg_first N M x : guessSolution_wpg (structure_wpg N M) (mkSolution structure_reset x) = Ok (mkSolution (structure_wpg N M) (zeros (N * 2 + M * 2))).
Proof. reflexivity. Qed.
