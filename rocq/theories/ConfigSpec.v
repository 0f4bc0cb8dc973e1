(** * Vocabulary for the properties of configuration files *)
From Coq Require Import String List ZArith Arith Reals Bool.
From Verif Require Import Base RSum Matrix Config.
Import ListNotations.
Open Scope list_scope.

(** names of the entries a class stores in its section: own entries and those of its parents *)
Fixpoint names_of (e : entry) : list string :=
  match e with
  | EScalar n _ | EEnum n | EVector n _ | EList n _ | EMatrix n | EMember n _ _ _ => [n]
  | EParent es => flat_map names_of es
  end.
Definition class_names (es : list entry) : list string := flat_map names_of es.

(** the values have the declared types; the size of a fixed size vector is part of its type *)
Definition kind (s : scalar) : skind := match s with SInt _ => KInt | SReal _ => KReal | SBool _ => KBool | SStr _ => KStr end.
Fixpoint has_type (e : entry) (v : value) {struct e} : Prop :=
  let all := fix all (es : list entry) (vs : list value) {struct es} : Prop :=
    match es, vs with
    | [], [] => True
    | e :: es', v :: vs' => has_type e v /\ all es' vs'
    | _, _ => False
    end in
  match e, v with
  | EScalar _ k, VScalar s => kind s = k
  | EEnum _, VEnum _ => True
  | EVector _ size, VVector l => size = None \/ size = Some (length l)
  | EList _ k, VList l => forall s, In s l -> kind s = k
  | EMatrix _, VMatrix _ => True
  | EParent es, VObject vs => all es vs
  | EMember _ es _ _, VObject vs => all es vs
  | _, _ => False
  end.
Fixpoint have_types (es : list entry) (vs : list value) {struct es} : Prop :=
  match es, vs with
  | [], [] => True
  | e :: es', v :: vs' => has_type e v /\ have_types es' vs'
  | _, _ => False
  end.

(** a class is well formed if the names in each section are distinct, and setDefaults() produces values of the declared types *)
Fixpoint wf_entry (e : entry) : Prop :=
  match e with
  | EParent es => fold_right (fun e P => wf_entry e /\ P) True es
  | EMember _ es _ dflt => NoDup (class_names es) /\ (forall l, have_types es l -> have_types es (dflt l)) /\ fold_right (fun e P => wf_entry e /\ P) True es
  | _ => True
  end.
Definition wf_class (c : cls) : Prop := wf_entry (EMember "" (c_entries c) (c_finalize c) (c_defaults c)).

(** the value that is found in the file.  The matrix: its columns one after another, cut into rows *)
Definition columns_of (m : mat) : list R := map (fun k => mget m (k mod mrows m) (k / mrows m)) (seq 0 (mrows m * mcols m)).
Definition rows_from (r c : nat) (l : list R) : mat := mkMat r c (fun i j => nth (i * c + j) l 0%R).
Fixpoint stored (fmt : R -> R) (v : value) : value :=
  match v with
  | VScalar (SReal x) => VScalar (SReal (fmt x))
  | VScalar s => VScalar s
  | VEnum z => VEnum z
  | VVector l => VVector (map fmt l)
  | VList l => VList (map (fun s => match s with SReal x => SReal (fmt x) | _ => s end) l)
  | VMatrix m => VMatrix (rows_from (mrows m) (mcols m) (map fmt (columns_of m)))
  | VObject l => VObject (map (stored fmt) l)
  end.

(** no matrices among the members *)
Fixpoint matrix_free (v : value) : Prop :=
  match v with VMatrix _ => False | VObject l => fold_right (fun x P => matrix_free x /\ P) True l | _ => True end.

(** the numbers of an object that are stored as doubles *)
Fixpoint numbers (v : value) : list R :=
  match v with
  | VScalar (SReal x) => [x]
  | VVector l => l
  | VList l => flat_map (fun s => match s with SReal x => [x] | _ => [] end) l
  | VObject l => flat_map numbers l
  | _ => []
  end.

(** finalize() accepts what is read: the stored values and, in classes with parents, also the intermediate states *)
Definition is_parent (e : entry) : bool := match e with EParent _ => true | _ => false end.
Definition has_parent (es : list entry) : bool := existsb is_parent es.
Definition accepting (es : list entry) (fin : list value -> bool) (l : list value) : Prop :=
  fin l = true /\ (has_parent es = true -> forall l', fin l' = true).
Fixpoint accepted (fmt : R -> R) (e : entry) (v : value) {struct e} : Prop :=
  let all := fix all (es : list entry) (vs : list value) {struct es} : Prop :=
    match es, vs with e :: es', v :: vs' => accepted fmt e v /\ all es' vs' | _, _ => True end in
  match e, v with
  | EParent es, VObject vs => all es vs
  | EMember _ es fin _, VObject vs => accepting es fin (map (stored fmt) vs) /\ all es vs
  | _, _ => True
  end.
Fixpoint all_accepted (fmt : R -> R) (es : list entry) (vs : list value) {struct es} : Prop :=
  match es, vs with e :: es', v :: vs' => accepted fmt e v /\ all_accepted fmt es' vs' | _, _ => True end.

(** what a relaxed read leaves in a member that is not in the file *)
Definition default_of (e : entry) (v : value) : value :=
  match e, v with EMember _ _ _ dflt, VObject l => VObject (dflt l) | _, _ => v end.
(** [keep]: which names of the section are present in the file *)
Fixpoint patched (fmt : R -> R) (keep : string -> bool) (e : entry) (v dv : value) {struct e} : value :=
  let go := fix go (es : list entry) (vs dvs : list value) {struct es} : list value :=
    match es, vs, dvs with
    | e :: es', v :: vs', d :: dvs' => patched fmt keep e v d :: go es' vs' dvs'
    | _, _, _ => []
    end in
  match e, v, dv with
  | EParent es, VObject vs, VObject dvs => VObject (go es vs dvs)
  | _, _, _ => if forallb keep (names_of e) then stored fmt v else default_of e dv
  end.
Fixpoint patched_list (fmt : R -> R) (keep : string -> bool) (es : list entry) (vs dvs : list value) {struct es} : list value :=
  match es, vs, dvs with
  | e :: es', v :: vs', d :: dvs' => patched fmt keep e v d :: patched_list fmt keep es' vs' dvs'
  | _, _, _ => []
  end.

(** ** the msgpack stream: [decodes ts n rest]: the tokens [ts] start with one complete object [n] followed by [rest] *)
Inductive decodes : list tok -> node -> list tok -> Prop :=
| D_scalar s rest : decodes (TScalar s :: rest) (NScalar s) rest
| D_array n l rest : length l = n -> decodes (TArray n :: map TScalar l ++ rest) (NSeq l) rest
| D_map n ts l rest : decodes_pairs n ts l rest -> decodes (TMap n :: ts) (NMap l) rest
with decodes_pairs : nat -> list tok -> list (string * node) -> list tok -> Prop :=
| DP_nil ts : decodes_pairs 0 ts [] ts
| DP_cons n name ts nd ts1 l rest :
    decodes ts nd ts1 -> decodes_pairs n ts1 l rest -> decodes_pairs (S n) (TScalar (SStr name) :: ts) ((name, nd) :: l) rest.
Inductive decodes_file : list tok -> list node -> Prop :=
| DF_nil : decodes_file [] []
| DF_cons ts n ts1 ns : decodes ts n ts1 -> decodes_file ts1 ns -> decodes_file ts (n :: ns).

(** an object can be written and read back: types, finalize() *)
Definition readable (fmt : R -> R) (c : cls) (vs : list value) : Prop :=
  have_types (c_entries c) vs /\ all_accepted fmt (c_entries c) vs /\ accepting (c_entries c) (c_finalize c) (map (stored fmt) vs).
(** the section of an object *)
Definition section_of (fmt : R -> R) (c : cls) (vs : list value) : list (string * node) := write_list fmt (c_entries c) vs.
Definition section_name (o : string * cls * list value) : string := fst (fst o).
(** at its position the reader finds under [name] the section [l] *)
Definition finds (r : reader) (name : string) (l : list (string * node)) : Prop :=
  match stack r with
  | NMap top :: _ => exists pre post, top = pre ++ (name, NMap l) :: post /\ ~ In name (map fst pre)
  | [] => exists pre post, handles r = pre ++ NMap [(name, NMap l)] :: post /\
            forall h, In h pre -> match h with NMap ((n, _) :: _) => n <> name | _ => True end
  | _ => False
  end.
(** at its position the reader does not find [name] *)
Definition finds_nothing (r : reader) (name : string) : Prop :=
  match stack r with
  | NMap top :: _ => ~ In name (map fst top)
  | [] => forall h, In h (handles r) -> match h with NMap ((n, _) :: _) => n <> name | _ => True end
  | _ => True
  end.
