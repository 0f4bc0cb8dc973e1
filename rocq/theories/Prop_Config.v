(** * Properties C50 (round trip), C51 (matrices), C52 (announced numbers of entries), C53 (position of the reader) *)
From Coq Require Import String List ZArith Arith Reals Lra Bool Lia.
From Flocq Require Import Core.
From Verif Require Import Base RSum Matrix Config ConfigSpec ConfigFacts ConfigNumber ConfigNumberFacts.
Import ListNotations.
Local Open Scope nat_scope.
Local Open Scope list_scope.

(** ** C50.  A file with any number of objects under distinct names; the target has any previous members [old] *)
Theorem C50_msgpack_round_trip : forall objs name c vs old crash,
  NoDup (map section_name objs) -> In (name, c, vs) objs -> wf_class c -> readable (fun x => x) c vs -> have_types (c_entries c) old ->
  (forall v, In v vs -> matrix_free v) ->
  readConfig c name crash old (msgpack_file objs) = (msgpack_file objs, Done vs).
Proof. exact msgpack_round_trip. Qed.
(** YAML: doubles are stored with 15 digits, everything else is restored *)
Theorem C50_yaml_stored : forall fmt objs name c vs old crash,
  NoDup (map section_name objs) -> In (name, c, vs) objs -> wf_class c -> readable fmt c vs -> have_types (c_entries c) old ->
  readConfig c name crash old (yaml_file fmt objs) = (yaml_file fmt objs, Done (map (stored fmt) vs)).
Proof. exact yaml_round_trip. Qed.
Theorem C50_yaml_decimals : forall objs name c vs old crash,
  NoDup (map section_name objs) -> In (name, c, vs) objs -> wf_class c -> readable yaml_number c vs -> have_types (c_entries c) old ->
  (forall v, In v vs -> matrix_free v) ->
  (forall x, In x (flat_map numbers vs) -> exists d, decimal15 d /\ (d = 0 \/ bpow radix2 (-1022) <= Rabs d)%R /\ x = parse64 d) ->
  readConfig c name crash old (yaml_file yaml_number objs) = (yaml_file yaml_number objs, Done vs).
Proof. exact yaml_file_decimals. Qed.
Local Open Scope R_scope.
Theorem C50_yaml_number_error : forall x,
  bpow radix2 (-1021) <= Rabs x -> Rabs (yaml_number x - x) <= 6 / 1000000000000000 * Rabs x.
Proof. exact yaml_error. Qed.
Theorem C50_yaml_number_stable : forall x,
  print15 x = 0 \/ bpow radix2 (-1022) <= Rabs (print15 x) -> yaml_number (yaml_number x) = yaml_number x.
Proof. exact yaml_stable. Qed.
Theorem C50_yaml_number_refuted : exists x : R, parse64 x = x /\
  readConfig one_number "S" true [VScalar (SReal 0)] (yaml_file yaml_number [("S"%string, one_number, [VScalar (SReal x)])]) =
    (yaml_file yaml_number [("S"%string, one_number, [VScalar (SReal x)])], Done [VScalar (SReal (x - 1))]).
Proof. exact yaml_file_lossy. Qed.
Local Open Scope nat_scope.
Local Open Scope list_scope.
(** strict reading: a missing section, a missing entry (own or of a parent class), a failure in a nested section *)
Theorem C50_missing_section : forall c name crash old r,
  finds_nothing r name ->
  readConfig c name crash old r = (r, if crash then Thrown else Done (c_defaults c old)).
Proof. exact missing_section. Qed.
Theorem C50_strict_missing_entry : forall c name old r l n,
  wf_class c -> have_types (c_entries c) old -> finds r name l ->
  In n (class_names (c_entries c)) -> ~ In n (map fst l) ->
  exists r', readConfig c name true old r = (r', Thrown).
Proof. exact strict_missing. Qed.
Theorem C50_nested_failure : forall c name crash old r l i n sub vs,
  finds r name l -> nth_error (c_entries c) i = Some (EMember n (c_entries sub) (c_finalize sub) (c_defaults sub)) ->
  nth_error (c_defaults c old) i = Some (VObject vs) ->
  (exists r', readConfig sub n crash vs (mkReader (handles r) (NMap l :: stack r)) = (r', Thrown)) ->
  exists r', readConfig c name crash old r = (r', Thrown).
Proof. exact nested_failure. Qed.
(** relaxed reading of a section from which any entries have been removed *)
Theorem C50_relaxed_missing_entries : forall fmt keep c vs old name r,
  wf_class c -> readable fmt c vs -> have_types (c_entries c) old ->
  accepting (c_entries c) (c_finalize c) (patched_list fmt keep (c_entries c) vs (c_defaults c old)) ->
  finds r name (filter (fun p => keep (fst p)) (section_of fmt c vs)) ->
  readConfig c name false old r = (r, Done (patched_list fmt keep (c_entries c) vs (c_defaults c old))).
Proof. exact relaxed_read_at. Qed.
Theorem C50_parent_finalize_refuted : exists vs,
  have_types (c_entries checked) vs /\ c_finalize checked vs = true /\
  exists r', readConfig checked "S" true vs (msgpack_file [("S"%string, checked, vs)]) = (r', Thrown).
Proof. exact parent_finalizes_early. Qed.

(** a task-like class with a parent, an enum, a fixed and a dynamic vector, a list of strings, and a nested object with a check *)
Definition inner : cls :=
  mkCls [EScalar "period" KInt; EScalar "on" KBool]
    (fun l => match l with [VScalar (SInt p); _] => (0 <? p)%Z | _ => false end) (fun _ => [VScalar (SInt 7); VScalar (SBool false)]).
Definition outer : cls :=
  mkCls [EParent [EScalar "gain" KReal]; EEnum "type"; EVector "position" (Some 3); EVector "data" None; EList "names" KStr;
         EMember "clock" (c_entries inner) (c_finalize inner) (c_defaults inner)]
    (fun _ => true)
    (fun _ => [VObject [VScalar (SReal 1)]; VEnum 0; VVector [0; 0; 0]%R; VVector []; VList []; VObject (c_defaults inner [])]).
Definition outer_value : list value :=
  [VObject [VScalar (SReal (1/10)%R)]; VEnum 3; VVector [1; 2; 3]%R; VVector [5]%R; VList [SStr "a"; SStr "b"];
   VObject [VScalar (SInt 20); VScalar (SBool true)]].
Definition outer_default : list value := c_defaults outer [].
Lemma outer_wf : wf_class outer.
Proof.
  split; [|split].
  - cbn. repeat (constructor; [cbn; intros H; decompose [or] H; try discriminate; assumption|]). constructor.
  - intros l _. cbn. repeat (split; [auto; try (intros s [])|]); auto.
  - cbn. repeat split; auto. repeat (constructor; [cbn; intros H; decompose [or] H; try discriminate; assumption|]). constructor.
Qed.
Lemma outer_types : have_types (c_entries outer) outer_value.
Proof. cbn. repeat split; auto. intros s [<-|[<-|[]]]; reflexivity. Qed.
Lemma outer_default_types : have_types (c_entries outer) outer_default.
Proof. cbn. repeat split; auto; try (intros s []). Qed.
Lemma outer_readable : readable (fun x => x) outer outer_value.
Proof. split; [exact outer_types|]. cbn. repeat split; auto; discriminate. Qed.
Example C50_example :
  let objs := [("other"%string, inner, [VScalar (SInt 1); VScalar (SBool true)]); ("task"%string, outer, outer_value)] in
  readConfig outer "task" true outer_default (msgpack_file objs) = (msgpack_file objs, Done outer_value).
Proof.
  apply C50_msgpack_round_trip.
  - cbn. repeat (constructor; [cbn; intros H; decompose [or] H; try discriminate; assumption|]). constructor.
  - right. left. reflexivity.
  - exact outer_wf.
  - exact outer_readable.
  - exact outer_default_types.
  - intros v I. cbn in I. decompose [or] I; subst; cbn; tauto.
Qed.
(** "type" and "clock" are not in the file: type keeps its default, clock is reset *)
Example C50_relaxed_example :
  let keep n := negb (String.eqb n "type" || String.eqb n "clock") in
  readConfig outer "task" false outer_value
    (mkReader [] [NMap [("task"%string, NMap (filter (fun p => keep (fst p)) (section_of (fun x => x) outer outer_value)))]]) =
  (mkReader [] [NMap [("task"%string, NMap (filter (fun p => keep (fst p)) (section_of (fun x => x) outer outer_value)))]],
   Done [VObject [VScalar (SReal (1/10)%R)]; VEnum 0; VVector [1; 2; 3]%R; VVector [5]%R; VList [SStr "a"; SStr "b"];
         VObject [VScalar (SInt 7); VScalar (SBool false)]]).
Proof.
  intros keep. rewrite (C50_relaxed_missing_entries (fun x => x) keep outer outer_value outer_value "task").
  - reflexivity.
  - exact outer_wf.
  - exact outer_readable.
  - exact outer_types.
  - split; reflexivity.
  - exists [], []. split; [reflexivity|intros []].
Qed.

(** ** C51.  What a matrix becomes; when it survives *)
Theorem C51_matrix_read_back : forall n m old crash,
  readConfig (one_matrix n) "S" crash [VMatrix old] (msgpack_file [("S"%string, one_matrix n, [VMatrix m])]) =
  (msgpack_file [("S"%string, one_matrix n, [VMatrix m])], Done [VMatrix (rows_from (mrows m) (mcols m) (columns_of m))]).
Proof. exact matrix_file_msgpack. Qed.
Theorem C51_matrix_read_back_yaml : forall fmt n m old crash,
  readConfig (one_matrix n) "S" crash [VMatrix old] (yaml_file fmt [("S"%string, one_matrix n, [VMatrix m])]) =
  (yaml_file fmt [("S"%string, one_matrix n, [VMatrix m])], Done [VMatrix (rows_from (mrows m) (mcols m) (map fmt (columns_of m)))]).
Proof. exact matrix_file. Qed.
Theorem C51_kept_iff : forall m,
  rows_from (mrows m) (mcols m) (columns_of m) ==m m <->
  (forall k, (k < mrows m * mcols m)%nat -> mget m (k mod mrows m) (k / mrows m) = mget m (k / mcols m) (k mod mcols m)).
Proof. exact matrix_kept_iff. Qed.
Theorem C51_square_transposed : forall m,
  mrows m = mcols m -> rows_from (mrows m) (mcols m) (columns_of m) ==m mtrans m.
Proof. exact square_matrix_transposed. Qed.
Theorem C51_row_kept : forall m,
  mrows m = 1%nat -> rows_from (mrows m) (mcols m) (columns_of m) ==m m.
Proof. exact row_matrix_kept. Qed.
Theorem C51_matrix_refuted : exists m : mat, ~ (rows_from (mrows m) (mcols m) (columns_of m) ==m m).
Proof. exact matrix_refuted. Qed.
Example C51_example : rows_from 3 2 (columns_of (mkMat 3 2 (fun i j => INR (10 * i + j)))) ==m
  mkMat 3 2 (fun i j => nth (2 * i + j) [0; 10; 20; 1; 11; 21]%R 0%R).
Proof.
  split; [reflexivity|split; [reflexivity|]]. intros i j Hi Hj. cbn in Hi, Hj.
  destruct i as [|[|[|i]]]; try lia; destruct j as [|[|j]]; try lia; cbn; lra.
Qed.

(** ** C52 *)
Theorem C52_number_of_entries : forall es vs,
  have_types es vs -> getNumberOfEntries es = length (write_list (fun x => x) es vs).
Proof. exact number_of_entries. Qed.
Theorem C52_stream_decodes : forall name c vs rest,
  have_types (c_entries c) vs ->
  decodes (pack_config name c vs ++ rest) (NMap [(name, NMap (section_of (fun x => x) c vs))]) rest.
Proof. exact pack_config_decodes. Qed.
Theorem C52_file_decodes : forall objs,
  (forall name c vs, In (name, c, vs) objs -> have_types (c_entries c) vs) ->
  decodes_file (flat_map (fun o => let '(name, c, vs) := o in pack_config name c vs) objs) (handles (msgpack_file objs)).
Proof. exact file_decodes. Qed.
Theorem C52_decoding_unique : (forall ts n rest, decodes ts n rest -> forall n' rest', decodes ts n' rest' -> n' = n /\ rest' = rest) /\
  (forall k ts l rest, decodes_pairs k ts l rest -> forall l' rest', decodes_pairs k ts l' rest' -> l' = l /\ rest' = rest).
Proof. exact decodes_unique. Qed.
Example C52_example : pack_config "task" outer outer_value =
  [TMap 1; TScalar (SStr "task"); TMap 6; TScalar (SStr "gain"); TScalar (SReal (1/10)%R); TScalar (SStr "type"); TScalar (SInt 3);
   TScalar (SStr "position"); TArray 3; TScalar (SReal 1); TScalar (SReal 2); TScalar (SReal 3);
   TScalar (SStr "data"); TArray 1; TScalar (SReal 5); TScalar (SStr "names"); TArray 2; TScalar (SStr "a"); TScalar (SStr "b");
   TScalar (SStr "clock"); TMap 2; TScalar (SStr "period"); TScalar (SInt 20); TScalar (SStr "on"); TScalar (SBool true)].
Proof. reflexivity. Qed.

(** ** C53 *)
Theorem C53_position : forall c name crash old r,
  match readConfig c name crash old r with
  | (r', Done _) => r' = r
  | (r', Thrown) => match descend name r with
                    | None => r' = r
                    | Some _ => handles r' = handles r /\ exists extra n, stack r' = extra ++ n :: stack r
                    end
  end.
Proof. exact readConfig_position. Qed.
Theorem C53_after_failure_refuted : exists (file r1 : reader) (a b : cls) (vs : list value),
  file = mkReader [] [NMap [("A"%string, NMap [("value"%string, NScalar (SStr "x"))]); ("B"%string, NMap (section_of (fun x => x) b vs))]] /\
  readConfig a "A" false (c_defaults a []) file = (r1, Thrown) /\
  readConfig b "B" false (c_defaults b []) file = (file, Done vs) /\
  readConfig b "B" false (c_defaults b []) r1 = (r1, Done (c_defaults b [])) /\ vs <> c_defaults b [].
Proof. exact reader_lost. Qed.
Example C53_example : exists r', readConfig inner "clock" true (c_defaults inner [])
    (mkReader [] [NMap [("clock"%string, NMap [("period"%string, NScalar (SInt 0)); ("on"%string, NScalar (SBool true))])]]) = (r', Thrown) /\
  length (stack r') = 2%nat.
Proof. eexists. split; reflexivity. Qed.

Print Assumptions C50_msgpack_round_trip. Print Assumptions C50_yaml_stored. Print Assumptions C50_yaml_decimals. Print Assumptions C50_yaml_number_error. Print Assumptions C50_yaml_number_stable. Print Assumptions C50_yaml_number_refuted. Print Assumptions C50_missing_section. Print Assumptions C50_strict_missing_entry. Print Assumptions C50_nested_failure. Print Assumptions C50_relaxed_missing_entries. Print Assumptions C50_parent_finalize_refuted. Print Assumptions C51_matrix_read_back. Print Assumptions C51_matrix_read_back_yaml. Print Assumptions C51_kept_iff. Print Assumptions C51_square_transposed. Print Assumptions C51_row_kept. Print Assumptions C51_matrix_refuted. Print Assumptions C52_number_of_entries. Print Assumptions C52_stream_decodes. Print Assumptions C52_file_decodes. Print Assumptions C52_decoding_unique. Print Assumptions C53_position. Print Assumptions C53_after_failure_refuted.
