(** * Configuration files
    (/repo/core/include/config.h, core/include/config/define_accessors.h, bridges/config_yaml, bridges/config_msgpack) *)
From Coq Require Import String List ZArith Arith Reals Bool.
From Verif Require Import Base RSum Matrix.
Import ListNotations.
Open Scope list_scope.

(** ** documents *)
(** scalars; enums are stored as integers. Conversions: an integer is accepted where a number is expected; all other
    mismatches are errors (a simplification for YAML, where a string may be read from any scalar) (the types given to writeScalar() and readScalar(), config_yaml/writer.h:261-267, config_msgpack/writer.h:217-222) *)
Inductive scalar := SInt (z : Z) | SReal (x : R) | SBool (b : bool) | SStr (s : string).
(** the type of an entry, the template parameter of readScalar(), config_yaml/reader.h:282-298, config_msgpack/reader.h:319-335 *)
Inductive skind := KInt | KReal | KBool | KStr.
(** as<T>() of a node in config_yaml/reader.h:288 and convert() of an object in config_msgpack/reader.h:325 *)
Definition convert (k : skind) (s : scalar) : option scalar :=
  match k, s with
  | KInt, SInt _ | KReal, SReal _ | KBool, SBool _ | KStr, SStr _ => Some s
  | KReal, SInt z => Some (SReal (IZR z))
  | _, _ => None
  end.
(** a YAML node / a msgpack object; NRows: a sequence of sequences (std::vector<std::vector<std::string> >, used only by
    configurable_optimization_problem.h:73-74, see ConfigProblem.v) *)
Inductive node := NScalar (s : scalar) | NSeq (l : list scalar) | NRows (l : list (list scalar)) | NMap (l : list (string * node)).

(** ** configurable classes (HUMOTO_CONFIG_ENTRIES) and the values of their members (define_accessors.h:18-70) *)
Inductive value :=
| VScalar (s : scalar) | VEnum (z : Z)
| VVector (l : list R)          (* Eigen vector *)
| VList (l : list scalar)       (* std::vector *)
| VMatrix (m : mat)             (* Eigen matrix with more than one column *)
| VObject (l : list value).     (* members of a parent or member class *)
(** HUMOTO_CONFIG_SCALAR, _ENUM, _COMPOUND (three kinds), _PARENT_CLASS, _MEMBER_CLASS. For a member class: its entries,
    whether finalize() accepts the members, and setDefaults() as a function of the previous members. (define_accessors.h:18-70) *)
Inductive entry :=
| EScalar (name : string) (k : skind)
| EEnum (name : string)
| EVector (name : string) (size : option nat) (* fixed size, if any *)
| EList (name : string) (k : skind)
| EMatrix (name : string)
| EParent (es : list entry)
| EMember (name : string) (es : list entry) (fin : list value -> bool) (dflt : list value -> list value).

(** ** writing.  [fmt]: what becomes of a double when it is written (msgpack: itself; YAML: see ConfigNumber.v) (config_yaml/writer.h:39, 261-267) *)
Definition fmt_scalar (fmt : R -> R) (s : scalar) : scalar := match s with SReal x => SReal (fmt x) | _ => s end.
(** config_yaml/writer.h:169-175; config_msgpack/writer.h:142-145 for column major matrices: column after column *)
Definition column_major (m : mat) : list R :=
  flat_map (fun i => map (fun j => mget m j i) (seq 0 (mrows m))) (seq 0 (mcols m)).
(** the pairs written for one entry: config_yaml/writer.h 123-138, 156-180, 220-265; config_msgpack/writer.h 99-111,
    128-148, 183-222; a parent class writes its entries in the same map (config.h:25), a member class a nested map
    (config.h:26, 284-291) *)
Fixpoint write_entry (fmt : R -> R) (e : entry) (v : value) {struct e} : list (string * node) :=
  let write_list := fix write_list (es : list entry) (vs : list value) {struct es} : list (string * node) :=
    match es, vs with
    | e :: es', v :: vs' => write_entry fmt e v ++ write_list es' vs'
    | _, _ => []
    end in
  match e, v with
  | EScalar name _, VScalar s => [(name, NScalar (fmt_scalar fmt s))]
  | EEnum name, VEnum z => [(name, NScalar (SInt z))]
  | EVector name _, VVector l => [(name, NSeq (map (fun x => SReal (fmt x)) l))]
  | EList name _, VList l => [(name, NSeq (map (fmt_scalar fmt) l))]
  | EMatrix name, VMatrix m =>
      [(name, NMap [("cols"%string, NScalar (SInt (Z.of_nat (mcols m)))); ("rows"%string, NScalar (SInt (Z.of_nat (mrows m))));
                    ("data"%string, NSeq (map (fun x => SReal (fmt x)) (column_major m)))])]
  | EParent es, VObject vs => write_list es vs
  | EMember name es _ _, VObject vs => [(name, NMap (write_list es vs))]
  | _, _ => []
  end.
(** HUMOTO_CONFIG_ENTRIES expanded in writeConfigEntriesTemplate(), define_accessors.h:31-35 *)
Fixpoint write_list (fmt : R -> R) (es : list entry) (vs : list value) {struct es} : list (string * node) :=
  match es, vs with
  | e :: es', v :: vs' => write_entry fmt e v ++ write_list fmt es' vs'
  | _, _ => []
  end.
(** define_accessors.h:97-114 *)
Fixpoint entry_count (e : entry) : nat :=
  match e with EParent es => list_sum (map entry_count es) | _ => 1 end.
(** define_accessors.h:97-114 *)
Definition getNumberOfEntries (es : list entry) : nat := list_sum (map entry_count es).

(** ** reading *)
(** a reader: for YAML a stack of nodes with the document at the bottom (reader.h:26-33, 55-57); for msgpack the objects of the
    file and an initially empty stack (reader.h:24-29) *)
Record reader := mkReader { handles : list node; stack : list node }.
(** the first pair with the key, config_yaml/reader.h:102-115, config_msgpack/reader.h:117-152 *)
Definition lookup (name : string) (l : list (string * node)) : option node := option_map snd (find (fun p => String.eqb name (fst p)) l).
(** the node of a key of a map, config_yaml/reader.h:102-115, config_msgpack/reader.h:117-152 *)
Definition child (name : string) (n : node) : option node := match n with NMap l => lookup name l | _ => None end.
(** YAML: config_yaml/reader.h:102-115 (an empty stack is undefined; it does not occur: see ConfigFacts); msgpack:
    config_msgpack/reader.h:117-152: at the bottom only the first pair of each object is considered, and only if its value is
    a map; a pointer to a missing first pair (empty map) is undefined and modelled as not found *)
Definition root_child (name : string) (n : node) : option node :=
  match n with NMap ((k, NMap l) :: _) => if String.eqb name k then Some (NMap l) else None | _ => None end.
(** the loop over the objects of a file, config_msgpack/reader.h:117-152 *)
Fixpoint find_root (name : string) (hs : list node) : option node :=
  match hs with [] => None | h :: t => match root_child name h with Some n => Some n | None => find_root name t end end.
(** config_yaml/reader.h:102-115, config_msgpack/reader.h:117-152 *)
Definition descend (name : string) (r : reader) : option reader :=
  match stack r with
  | top :: _ => option_map (fun n => mkReader (handles r) (n :: stack r)) (child name top)
  | [] => option_map (fun n => mkReader (handles r) [n]) (find_root name (handles r))
  end.
(** config_yaml/reader.h:121-124, config_msgpack/reader.h:158-161 *)
Definition ascend (r : reader) : reader := mkReader (handles r) (tl (stack r)).
(** the top of the stack, config_yaml/reader.h:121-124, 282-298 *)
Definition current (r : reader) : node := hd (NSeq []) (stack r).
(** result of a read: an exception leaves the reader where it is (readers rethrow with HUMOTO_THROW_MSG, config.h:131-156) *)
Inductive res (A : Type) := Done (a : A) | Thrown.
Arguments Done {A}. Arguments Thrown {A}.
(** the common shape of the functions of the readers: if (descend(name)) { body; ascend(); } else if (crash) throw (config_yaml/reader.h:282-298, config_msgpack/reader.h:319-335) *)
Definition within {A} (name : string) (crash : bool) (keep : A) (r : reader) (body : reader -> reader * res A) : reader * res A :=
  match descend name r with
  | Some r1 => match body r1 with
               | (r2, Done a) => (ascend r2, Done a)
               | (r2, Thrown) => (r2, Thrown)
               end
  | None => (r, if crash then Thrown else Done keep)
  end.
(** the loop over the elements of a sequence, config_yaml/reader.h:141-175, config_msgpack/reader.h:178-212 *)
Fixpoint convert_all (k : skind) (l : list scalar) : option (list scalar) :=
  match l with
  | [] => Some []
  | s :: t => match convert k s, convert_all k t with Some a, Some b => Some (a :: b) | _, _ => None end
  end.
(** the number in a converted scalar, config_yaml/reader.h:161 *)
Definition real_of (s : scalar) : R := match s with SReal x => x | _ => 0%R end.
(** conversion to std::size_t of the numbers of rows and columns, config_yaml/reader.h:194-231, config_msgpack/reader.h:231-268 *)
Definition is_size (z : Z) : bool := (0 <=? z)%Z.
(** readScalar: config_yaml/reader.h:282-298, config_msgpack/reader.h:319-335; readEnum reads an integer in the same way (312-331, 349-369) *)
Definition read_scalar (name : string) (k : skind) (crash : bool) (keep : scalar) (r : reader) : reader * res scalar :=
  within name crash keep r (fun r1 =>
    (r1, match current r1 with NScalar s => match convert k s with Some x => Done x | None => Thrown end | _ => Thrown end)).
(** readCompound (vector): config_yaml/reader.h:141-175, config_msgpack/reader.h:178-212 *)
Definition read_vector (name : string) (size : option nat) (crash : bool) (keep : list R) (r : reader) : reader * res (list R) :=
  within name crash keep r (fun r1 =>
    (r1, match current r1 with
         | NSeq l => if match size with None => true | Some n => (length l =? n)%nat end
                     then match convert_all KReal l with Some xs => Done (map real_of xs) | None => Thrown end
                     else Thrown
         | _ => Thrown
         end)).
(** readCompound (std::vector): config_yaml/reader.h:243-269, config_msgpack/reader.h:280-306 *)
Definition read_list_of (name : string) (k : skind) (crash : bool) (keep : list scalar) (r : reader) : reader * res (list scalar) :=
  within name crash keep r (fun r1 =>
    (r1, match current r1 with NSeq l => match convert_all k l with Some xs => Done xs | None => Thrown end | _ => Thrown end)).
(** readCompound (matrix): config_yaml/reader.h:194-231, config_msgpack/reader.h:231-268; the data are taken row after row *)
Definition read_matrix (name : string) (crash : bool) (keep : mat) (r : reader) : reader * res mat :=
  within name crash keep r (fun r1 =>
    match read_scalar "rows" KInt true (SInt 0) r1 with
    | (r2, Done (SInt rows)) =>
      match read_scalar "cols" KInt true (SInt 0) r2 with
      | (r3, Done (SInt cols)) =>
        match read_vector "data" None true [] r3 with
        | (r4, Done v) =>
          if (Z.of_nat (length v) =? rows * cols)%Z && is_size rows && is_size cols
          then (r4, Done (mkMat (Z.to_nat rows) (Z.to_nat cols) (fun i j => nth (i * Z.to_nat cols + j) v 0%R)))
          else (r4, Thrown)
        | (r4, Thrown) => (r4, Thrown)
        end
      | (r3, _) => (r3, Thrown)
      end
    | (r2, _) => (r2, Thrown)
    end).
(** no code of its own: what is read becomes the member named in the macros of define_accessors.h:49-61 *)
Definition lift {A} (f : A -> value) (x : reader * res A) : reader * res value :=
  match x with (r, Done a) => (r, Done (f a)) | (r, Thrown) => (r, Thrown) end.
(** readConfigEntries.  [k]: whether finalize() accepts the object when this entry has the given value; finalize() is virtual, so
    that a parent class calls that of the most derived class (define_accessors.h:63-69).
    A member class: readNestedConfig, config.h:131-156 *)
Fixpoint read_entry (crash : bool) (e : entry) (v : value) (k : value -> bool) (r : reader) {struct e} : reader * res value :=
  let read_list := fix read_list (es : list entry) (vs : list value) (k : list value -> bool) (r : reader) {struct es} : reader * res (list value) :=
    match es, vs with
    | e :: es', v :: vs' =>
        match read_entry crash e v (fun v' => k (v' :: vs')) r with
        | (r1, Done v1) => match read_list es' vs' (fun l => k (v1 :: l)) r1 with
                           | (r2, Done l) => (r2, Done (v1 :: l))
                           | (r2, Thrown) => (r2, Thrown)
                           end
        | (r1, Thrown) => (r1, Thrown)
        end
    | _, _ => (r, Done vs)
    end in
  match e, v with
  | EScalar name kd, VScalar s => lift VScalar (read_scalar name kd crash s r)
  | EEnum name, VEnum z => lift (fun s => match s with SInt x => VEnum x | _ => v end) (read_scalar name KInt crash (SInt z) r)
  | EVector name size, VVector l => lift VVector (read_vector name size crash l r)
  | EList name kd, VList l => lift VList (read_list_of name kd crash l r)
  | EMatrix name, VMatrix m => lift VMatrix (read_matrix name crash m r)
  | EParent es, VObject vs =>
      match read_list es vs (fun l => k (VObject l)) r with
      | (r1, Done l) => (r1, if k (VObject l) then Done (VObject l) else Thrown)
      | (r1, Thrown) => (r1, Thrown)
      end
  | EMember name es fin dflt, VObject vs =>
      let vs0 := dflt vs in
      lift VObject (within name crash vs0 r (fun r1 =>
        match read_list es vs0 fin r1 with
        | (r2, Done l) => (r2, if fin l then Done l else Thrown)
        | (r2, Thrown) => (r2, Thrown)
        end))
  | _, _ => (r, Done v)
  end.
(** HUMOTO_CONFIG_ENTRIES expanded in readConfigEntriesTemplate(), define_accessors.h:63-69 *)
Fixpoint read_list (crash : bool) (es : list entry) (vs : list value) (k : list value -> bool) (r : reader) {struct es} : reader * res (list value) :=
  match es, vs with
  | e :: es', v :: vs' =>
      match read_entry crash e v (fun v' => k (v' :: vs')) r with
      | (r1, Done v1) => match read_list crash es' vs' (fun l => k (v1 :: l)) r1 with
                         | (r2, Done l) => (r2, Done (v1 :: l))
                         | (r2, Thrown) => (r2, Thrown)
                         end
      | (r1, Thrown) => (r1, Thrown)
      end
  | _, _ => (r, Done vs)
  end.

(** a configurable class (define_accessors.h:12-161 for one class) *)
Record cls := mkCls { c_entries : list entry; c_finalize : list value -> bool; c_defaults : list value -> list value }.
(** readConfig / readNestedConfig, config.h:131-182: a member class at the position of the reader *)
Definition readConfig (c : cls) (name : string) (crash : bool) (old : list value) (r : reader) : reader * res (list value) :=
  match read_entry crash (EMember name (c_entries c) (c_finalize c) (c_defaults c)) (VObject old) (fun _ => true) r with
  | (r1, Done (VObject l)) => (r1, Done l)
  | (r1, _) => (r1, Thrown)
  end.

(** ** files.  writeConfig (config.h:314-321) appends one object to the file *)
(** YAML: block style maps one after another are one map (writer.h:36-56, 271-275) *)
Definition yaml_file (fmt : R -> R) (objs : list (string * cls * list value)) : reader :=
  mkReader [] [NMap (map (fun o => let '(name, c, vs) := o in (name, NMap (write_list fmt (c_entries c) vs))) objs)].
(** msgpack: one object with one pair each (writer.h:74-77) *)
Definition msgpack_file (objs : list (string * cls * list value)) : reader :=
  mkReader (map (fun o => let '(name, c, vs) := o in NMap [(name, NMap (write_list (fun x => x) (c_entries c) vs))]) objs) [].

(** ** the msgpack stream (config_msgpack/writer.h): what is packed, in order (config_msgpack/writer.h:64-77, 99-222) *)
Inductive tok := TMap (n : nat) | TArray (n : nat) | TScalar (s : scalar).
(** what is packed for one entry, config_msgpack/writer.h:99-222 *)
Fixpoint pack_entry (e : entry) (v : value) {struct e} : list tok :=
  let pack_list := fix pack_list (es : list entry) (vs : list value) {struct es} : list tok :=
    match es, vs with
    | e :: es', v :: vs' => pack_entry e v ++ pack_list es' vs'
    | _, _ => []
    end in
  let key name := TScalar (SStr name) in
  match e, v with
  | EScalar name _, VScalar s => [key name; TScalar s]                                            (* 217-222 *)
  | EEnum name, VEnum z => [key name; TScalar (SInt z)]                                           (* 200-205 *)
  | EVector name _, VVector l => key name :: TArray (length l) :: map (fun x => TScalar (SReal x)) l   (* 99-111 *)
  | EList name _, VList l => key name :: TArray (length l) :: map TScalar l                       (* 183-188 *)
  | EMatrix name, VMatrix m =>                                                                    (* 128-148 *)
      [key name; TMap 3; key "cols"%string; TScalar (SInt (Z.of_nat (mcols m))); key "rows"%string; TScalar (SInt (Z.of_nat (mrows m)));
       key "data"%string; TArray (mrows m * mcols m)] ++ map (fun x => TScalar (SReal x)) (column_major m)
  | EParent es, VObject vs => pack_list es vs                                                     (* config.h:25 *)
  | EMember name es _ _, VObject vs => key name :: TMap (getNumberOfEntries es) :: pack_list es vs (* config.h:284-291 *)
  | _, _ => []
  end.
(** what is packed for the entries of a class, define_accessors.h:31-35, config_msgpack/writer.h:99-222 *)
Fixpoint pack_list (es : list entry) (vs : list value) {struct es} : list tok :=
  match es, vs with
  | e :: es', v :: vs' => pack_entry e v ++ pack_list es' vs'
  | _, _ => []
  end.
(** writeConfig: initRoot, descend, entries (config.h:314-321, config_msgpack/writer.h:64-77) *)
Definition pack_config (name : string) (c : cls) (vs : list value) : list tok :=
  TMap 1 :: pack_entry (EMember name (c_entries c) (c_finalize c) (c_defaults c)) (VObject vs).
