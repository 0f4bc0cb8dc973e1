From Coq Require Import String Ascii List NArith Lia Bool.
From Coq Require Import DecimalString DecimalN DecimalFacts.
From Verif Require Import Base LogName LogNameSpec.
Import ListNotations.
Local Open Scope string_scope.

Notation las := list_ascii_of_string.
Lemma las_app a b : las (append a b) = (las a ++ las b)%list.
Proof. induction a as [|c a IH]; cbn; [reflexivity|rewrite IH; reflexivity]. Qed.
Lemma las_inj a b : las a = las b -> a = b.
Proof. intros H. rewrite <- (string_of_list_ascii_of_string a), <- (string_of_list_ascii_of_string b), H. reflexivity. Qed.
Lemma las_nil a : las a = [] -> a = "".
Proof. destruct a; [reflexivity|discriminate]. Qed.
Lemma decimal_inj a b : decimal a = decimal b -> a = b.
Proof.
  unfold decimal. intros H. assert (X : N.to_uint a = N.to_uint b).
  { assert (S : Some (N.to_uint a) = Some (N.to_uint b)).
    { rewrite <- (NilZero.usu (N.to_uint a)), <- (NilZero.usu (N.to_uint b)); [rewrite H; reflexivity| |]; destruct a, b; try discriminate; apply DecimalPos.Unsigned.to_uint_nonnil. }
    injection S as ->. reflexivity. }
  apply DecimalN.Unsigned.to_uint_inj, X.
Qed.
Definition digits : list ascii := ["0";"1";"2";"3";"4";"5";"6";"7";"8";"9"]%char.
Lemma uint_digits d c : In c (las (NilEmpty.string_of_uint d)) -> In c digits.
Proof. induction d; cbn; intros H; try contradiction; destruct H as [<-|H]; try (apply IHd, H); cbn; tauto. Qed.
Lemma decimal_digits n c : In c (las (decimal n)) -> In c digits.
Proof. unfold decimal, NilZero.string_of_uint. destruct (N.to_uint n) eqn:E; try (intros H; apply (uint_digits _ _ H)). cbn. tauto. Qed.
Lemma split_last {A} (c : A) : forall a a' b b' : list A, (a ++ c :: b = a' ++ c :: b')%list -> ~ In c b -> ~ In c b' -> a = a' /\ b = b'.
Proof.
  induction a as [|x a IH]; intros [|x' a'] b b' E N N'; cbn in E.
  - injection E as <-. auto.
  - injection E as -> E. destruct N. rewrite E. apply in_or_app. right. left. reflexivity.
  - injection E as -> E. destruct N'. rewrite <- E. apply in_or_app. right. left. reflexivity.
  - injection E as -> E. destruct (IH a' b b' E N N') as [-> ->]. auto.
Qed.
Lemma entry_snoc ps p : entry_name (ps ++ [p]) = add (entry_name ps) p.
Proof. unfold entry_name. rewrite fold_left_app. reflexivity. Qed.
Lemma append_not_empty a b : b <> "" -> append a b <> "".
Proof. destruct a; cbn; [auto|discriminate]. Qed.
Lemma entry_empty ps : Forall plain ps -> (entry_name ps = "" <-> ps = []).
Proof.
  intros F. split; [|intros ->; reflexivity]. destruct ps as [|p ps _] using rev_ind; [reflexivity|]. rewrite entry_snoc. intros E. exfalso. revert E.
  apply Forall_app in F. destruct F as [_ F]. inversion F as [|? ? P _]; subst. destruct p as [s|i]; cbn [add plain] in *.
  - unfold appendEntryName. apply append_not_empty, P.
  - unfold appendEntryIndex. apply append_not_empty. discriminate.
Qed.
Lemma sub_chars s : plain (Sub s) -> forall c, In c special -> ~ In c (las s).
Proof. intros [_ H]. exact H. Qed.
Lemma sub_last s name : plain (Sub s) -> exists l c, las (appendEntryName name s) = (l ++ [c])%list /\ c <> "}"%char.
Proof.
  intros [NE H]. unfold appendEntryName. rewrite las_app. destruct (las s) as [|x l _] eqn:E using rev_ind; [destruct NE; apply las_nil, E|].
  exists (las (match name with "" => name | String _ _ => match s with "" => name | String _ _ => append name "." end end) ++ l)%list, x. split; [rewrite app_assoc; reflexivity|].
  intros ->. apply (H "}"%char); [right; right; left; reflexivity|]. apply in_or_app. right. left. reflexivity.
Qed.
Theorem names_unambiguous : forall ps qs, Forall plain ps -> Forall plain qs -> entry_name ps = entry_name qs -> ps = qs.
Proof.
  induction ps as [|p ps IH] using rev_ind; intros qs FP FQ E.
  { symmetry. apply (entry_empty qs FQ). rewrite <- E. reflexivity. }
  destruct qs as [|q qs _] using rev_ind.
  { apply (entry_empty _ FP). exact E. }
  apply Forall_app in FP. destruct FP as [FP P]. inversion P as [|? ? PP _]; subst. apply Forall_app in FQ. destruct FQ as [FQ Q]. inversion Q as [|? ? PQ _]; subst.
  rewrite !entry_snoc in E. destruct p as [s|i], q as [t|j]; cbn [add] in E.
  - pose proof (sub_chars s PP) as CS. pose proof (sub_chars t PQ) as CT. destruct PP as [NS _], PQ as [NT _].
    assert (DS : ~ In "."%char (las s)) by (apply CS; left; reflexivity). assert (DT : ~ In "."%char (las t)) by (apply CT; left; reflexivity).
    unfold appendEntryName in E. destruct s as [|cs s]; [congruence|]. destruct t as [|ct t]; [congruence|].
    destruct (entry_name ps) as [|a n] eqn:EP, (entry_name qs) as [|b m] eqn:EQ.
    + apply (entry_empty ps FP) in EP. apply (entry_empty qs FQ) in EQ. subst. cbn in E. rewrite E. reflexivity.
    + exfalso. apply (f_equal las) in E. rewrite !las_app in E. rewrite List.app_nil_l in E. apply DS. rewrite E. apply in_or_app. left. apply in_or_app. right. left. reflexivity.
    + exfalso. apply (f_equal las) in E. rewrite !las_app in E. rewrite List.app_nil_l in E. apply DT. rewrite <- E. apply in_or_app. left. apply in_or_app. right. left. reflexivity.
    + apply (f_equal las) in E. rewrite !las_app in E. rewrite <- !List.app_assoc in E. apply split_last in E; [|assumption|assumption]. destruct E as [E1 E2].
      apply las_inj in E1, E2. rewrite <- EQ in E1. rewrite E2, (IH qs FP FQ E1). reflexivity.
  - exfalso. destruct (sub_last s (entry_name ps) PP) as (l & c & E1 & N). apply (f_equal las) in E. rewrite E1 in E. unfold appendEntryIndex in E. rewrite las_app in E.
    apply app_inj_tail in E. apply N, E.
  - exfalso. destruct (sub_last t (entry_name qs) PQ) as (l & c & E1 & N). apply (f_equal las) in E. rewrite E1 in E. unfold appendEntryIndex in E. rewrite las_app in E.
    apply app_inj_tail in E. destruct E as [_ E]. apply N. symmetry. exact E.
  - apply (f_equal las) in E. unfold appendEntryIndex in E. rewrite !las_app in E. change (las "}") with ["}"%char] in E. apply app_inj_tail in E. destruct E as [E _].
    change (las "{") with ["{"%char] in E. rewrite <- !List.app_assoc in E.
    assert (ND : forall n, ~ In "{"%char (las (decimal n))) by (intros n H; apply decimal_digits in H; cbn in H; intuition discriminate).
    apply split_last in E; [|apply ND|apply ND]. destruct E as [E1 E2]. apply las_inj in E1, E2. apply decimal_inj in E2. cbn [plain] in PP, PQ.
    rewrite !N.mod_small in E2 by lia. rewrite (IH qs FP FQ E1). do 2 f_equal. f_equal. lia.
Qed.
(** an empty sub-name changes nothing *)
Theorem empty_ignored ps : entry_name (ps ++ [Sub ""]) = entry_name ps.
Proof. rewrite entry_snoc. cbn [add]. unfold appendEntryName. destruct (entry_name ps); [reflexivity|]. apply las_inj. rewrite las_app. cbn. rewrite List.app_nil_r. reflexivity. Qed.
(** the restriction to plain sub-names is needed *)
Theorem separators_ambiguous : entry_name [Sub "a.b"] = entry_name [Sub "a"; Sub "b"] /\ entry_name [Sub "a{1}"] = entry_name [Sub "a"; Index 0].
Proof. split; reflexivity. Qed.
