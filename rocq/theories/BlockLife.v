(** * Block matrices: sizes of blocks, numbers of blocks, and how they change
    (/repo/core/include/eigentools/blockmatrix_base.h, blockmatrix.h).

    BlockMatrix.v has the products, for sizes which are known and fit. Here sizes are what they are in the code: template
    parameters, possibly DYNAMIC, and members; the numbers of blocks are members, which may be uninitialised or out of date.
    The raw matrix is a member; interfaces, which refer to a matrix of somebody else (blockmatrix.h:21-50), are the same as long
    as its size is not changed behind their back. ptrdiff_t is [Z]: products of sizes do not overflow. *)
From Coq Require Import List Arith ZArith Reals Bool Lia.
From Verif Require Import Base RSum Matrix Eigentools.
Import ListNotations.
Local Open Scope Z_scope.

(** blockmatrix_base.h:71-79 *)
Definition UNDEFINED : Z := 0.
(** blockmatrix_base.h:77 *)
Definition DYNAMIC : Z := -1.
(** the template parameters t_block_rows_num, t_block_cols_num (blockmatrix_base.h:104-106) *)
Record bsize := mkSize { t_rows : Z; t_cols : Z }.
(** blockmatrix_base.h:407-414; [None]: not initialised *)
Record bstate := mkState { s_raw : mat; s_nv : option Z; s_nh : option Z; s_rows : Z; s_cols : Z }.
(** a call either returns or throws; the object exists in both cases (EIGENTOOLS_ASSERT throws, core/include/eigentools.h:20; an exception of finalize() leaves the members assigned before, blockmatrix_base.h:168-203) *)
Inductive result := Fine (s : bstate) | Refused (s : bstate).
(** one statement after another, e.g. blockmatrix_base.h:182-188 *)
Definition then_ (r : result) (f : bstate -> result) : result := match r with Fine s => f s | Refused s => Refused s end.
(** EIGENTOOLS_ASSERT, e.g. blockmatrix_base.h:398-401 *)
Definition check (c : bool) (s : bstate) : result := if c then Fine s else Refused s.

(** blockmatrix_base.h:81-82, the macros *)
Definition eff (t m : Z) : Z := if 0 <? t then t else m.
(** blockmatrix_base.h:81 *)
Definition block_rows_num (z : bsize) (s : bstate) : Z := eff (t_rows z) (s_rows s).
(** blockmatrix_base.h:82 *)
Definition block_cols_num (z : bsize) (s : bstate) : Z := eff (t_cols z) (s_cols s).

(** blockmatrix_base.h:474-498 initializeBlockSize() *)
Definition initializeBlockSize (z : bsize) (r c : Z) (s : bstate) : result :=
  then_ (if t_rows z =? DYNAMIC then Fine (mkState (s_raw s) (s_nv s) (s_nh s) r (s_cols s))
         else then_ (check (r =? UNDEFINED) s) (fun s => Fine (mkState (s_raw s) (s_nv s) (s_nh s) (t_rows z) (s_cols s))))
    (fun s =>
         if t_cols z =? DYNAMIC then Fine (mkState (s_raw s) (s_nv s) (s_nh s) (s_rows s) c)
         else then_ (check (c =? UNDEFINED) s) (fun s => Fine (mkState (s_raw s) (s_nv s) (s_nh s) (s_rows s) (t_cols z)))).
(** blockmatrix_base.h:504-529 finalize() *)
Definition finalize (z : bsize) (s : bstate) : result :=
  then_ (if negb (t_rows z =? DYNAMIC) || negb (s_rows s =? UNDEFINED)
         then then_ (check (0 <? block_rows_num z s) s) (fun s =>
              then_ (check (Z.rem (Z.of_nat (mrows (s_raw s))) (block_rows_num z s) =? 0) s) (fun s =>
              Fine (mkState (s_raw s) (Some (Z.quot (Z.of_nat (mrows (s_raw s))) (block_rows_num z s))) (s_nh s) (s_rows s) (s_cols s))))
         else Fine s)
    (fun s =>
         if negb (t_cols z =? DYNAMIC) || negb (s_cols s =? UNDEFINED)
         then then_ (check (0 <? block_cols_num z s) s) (fun s =>
              then_ (check (Z.rem (Z.of_nat (mcols (s_raw s))) (block_cols_num z s) =? 0) s) (fun s =>
              Fine (mkState (s_raw s) (s_nv s) (Some (Z.quot (Z.of_nat (mcols (s_raw s))) (block_cols_num z s))) (s_rows s) (s_cols s))))
         else Fine s).

(** the constructors, blockmatrix_base.h:427-466: the raw matrix is empty or given; nothing exists if they throw *)
Definition construct (z : bsize) (m : mat) (r c : Z) : outcome bstate :=
  match then_ (initializeBlockSize z r c (mkState m None None 0 0)) (finalize z) with Fine s => Ok s | Refused _ => Throw end.

(** blockmatrix_base.h:395-404 *)
Definition setBlockSize (z : bsize) (r c : Z) (s : bstate) : result :=
  then_ (check (negb (t_rows z =? DYNAMIC) || (0 <? r)) s) (fun s =>
  then_ (check (negb (t_cols z =? DYNAMIC) || (0 <? c)) s) (fun s =>
  then_ (initializeBlockSize z r c s) (finalize z))).
(** blockmatrix_base.h:168-173 *)
Definition set (z : bsize) (m : mat) (s : bstate) : result := finalize z (mkState m (s_nv s) (s_nh s) (s_rows s) (s_cols s)).
(** Eigen asserts that the new sizes are not negative; the entries are uninitialised ([junk]) or zero (matrix_.resize() and matrix_.setZero() of blockmatrix_base.h:185, 200) *)
Definition eigen_resize (fill : nat -> nat -> R) (r c : Z) (s : bstate) : result :=
  then_ (check ((0 <=? r) && (0 <=? c)) s) (fun s => Fine (mkState (mkMat (Z.to_nat r) (Z.to_nat c) fill) (s_nv s) (s_nh s) (s_rows s) (s_cols s))).
(** blockmatrix_base.h:182-188 *)
Definition resize (z : bsize) (junk : nat -> nat -> R) (nv nh : Z) (s : bstate) : result :=
  then_ (eigen_resize junk (nv * block_rows_num z s) (nh * block_cols_num z s) s) (finalize z).
(** blockmatrix_base.h:197-203 *)
Definition setZero (z : bsize) (nv nh : Z) (s : bstate) : result :=
  then_ (eigen_resize (fun _ _ => 0%R) (nv * block_rows_num z s) (nh * block_cols_num z s) s) (finalize z).

(** blockmatrix_base.h:123-158 *)
Definition initialised (x : option Z) : outcome Z := match x with Some n => Ok n | None => UB end.
(** blockmatrix_base.h:129-132 *)
Definition getNumberOfBlocksVertical (s : bstate) : outcome Z := initialised (s_nv s).
(** blockmatrix_base.h:136-139 *)
Definition getNumberOfBlocksHorizontal (s : bstate) : outcome Z := initialised (s_nh s).
(** blockmatrix_base.h:148-151 *)
Definition getNumberOfRows (z : bsize) (s : bstate) : outcome Z := bind (initialised (s_nv s)) (fun n => Ok (block_rows_num z s * n)).
(** blockmatrix_base.h:155-158 *)
Definition getNumberOfColumns (z : bsize) (s : bstate) : outcome Z := bind (initialised (s_nh s)) (fun n => Ok (block_cols_num z s * n)).

(** Eigen::Block(m, i, j, r, c): the assertions of its constructor (used by all accessors, blockmatrix_base.h:238-344, 570-606) *)
Definition inside (m : mat) (i j r c : Z) : bool :=
  (0 <=? i) && (0 <=? r) && (i <=? Z.of_nat (mrows m) - r) && (0 <=? j) && (0 <=? c) && (j <=? Z.of_nat (mcols m) - c).
(** the value of an Eigen::Block, e.g. blockmatrix_base.h:238-247 *)
Definition view (m : mat) (i j r c : Z) : outcome mat :=
  assert_then (inside m i j r c) (Ok (mblock m (Z.to_nat i) (Z.to_nat j) (Z.to_nat r) (Z.to_nat c))).
(** assignment to a block: the size of the source is asserted (e.g. b(i, j) = src with blockmatrix_base.h:570-576) *)
Definition write (m : mat) (i j r c : Z) (src : mat) : outcome mat :=
  assert_then (inside m i j r c) (assert_then ((Z.of_nat (mrows src) =? r) && (Z.of_nat (mcols src) =? c))
    (Ok (mset_block m (Z.to_nat i) (Z.to_nat j) src))).
(** a part of the raw matrix: first row, first column, numbers of rows and columns (the arguments of the constructors of Eigen::Block in blockmatrix_base.h:242-246, 301-305, 573-575) *)
Definition area := (Z * Z * Z * Z)%type.
(** operator(), blockmatrix_base.h:570-590 (static sizes), 628-646 (a dynamic size), 757-771 (1x1) *)
Definition block_area (z : bsize) (s : bstate) (i j : Z) : area :=
  if (t_rows z =? DYNAMIC) || (t_cols z =? DYNAMIC) then (i * s_rows s, j * s_cols s, s_rows s, s_cols s)
  else (i * t_rows z, j * t_cols z, t_rows z, t_cols z).
(** blockmatrix_base.h:238-247, 268-277 *)
Definition column_area (z : bsize) (s : bstate) (j first num : Z) : area :=
  (first * block_rows_num z s, j * block_cols_num z s, num * block_rows_num z s, block_cols_num z s).
(** blockmatrix_base.h:297-306, 327-336 *)
Definition row_area (z : bsize) (s : bstate) (i first num : Z) : area :=
  (i * block_rows_num z s, first * block_cols_num z s, block_rows_num z s, num * block_cols_num z s).
(** the Eigen::Block of an area, blockmatrix_base.h:238-344, 570-606 *)
Definition view_area (s : bstate) (a : area) : outcome mat := let '(i, j, r, c) := a in view (s_raw s) i j r c.
(** operator(), blockmatrix_base.h:570-586 *)
Definition getBlock (z : bsize) (s : bstate) (i j : Z) : outcome mat := view_area s (block_area z s i j).
(** column(), blockmatrix_base.h:238-247, 268-277 *)
Definition getColumn (z : bsize) (s : bstate) (j first num : Z) : outcome mat := view_area s (column_area z s j first num).
(** row(), blockmatrix_base.h:297-306, 327-336 *)
Definition getRow (z : bsize) (s : bstate) (i first num : Z) : outcome mat := view_area s (row_area z s i first num).
(** blockmatrix_base.h:260-264, 281-285 and 319-323, 340-344: up to the end *)
Definition getColumnFrom (z : bsize) (s : bstate) (j first : Z) : outcome mat :=
  bind (initialised (s_nv s)) (fun n => getColumn z s j first (n - first)).
(** blockmatrix_base.h:319-323, 340-344 *)
Definition getRowFrom (z : bsize) (s : bstate) (i first : Z) : outcome mat :=
  bind (initialised (s_nh s)) (fun n => getRow z s i first (n - first)).
(** assignment to the Eigen::Block returned by an accessor, blockmatrix_base.h:238-344, 570-606 *)
Definition write_area (a : area) (src : mat) (s : bstate) : result :=
  let '(i, j, r, c) := a in
  match write (s_raw s) i j r c src with
  | Ok m => Fine (mkState m (s_nv s) (s_nh s) (s_rows s) (s_cols s))
  | _ => Refused s
  end.

(** the calls which change a block matrix (blockmatrix_base.h:168-203, 395-404, and assignments through 238-344, 570-606) *)
Inductive call :=
| SetBlockSize (r c : Z) | SetRaw (m : mat) | Resize (junk : nat -> nat -> R) (nv nh : Z) | SetZero (nv nh : Z)
| WriteBlock (i j : Z) (src : mat) | WriteColumn (j first num : Z) (src : mat) | WriteRow (i first num : Z) (src : mat).
(** the effect of a call, blockmatrix_base.h:168-203, 395-404, 238-344, 570-606 *)
Definition do_ (z : bsize) (c : call) (s : bstate) : result :=
  match c with
  | SetBlockSize r k => setBlockSize z r k s
  | SetRaw m => set z m s
  | Resize junk nv nh => resize z junk nv nh s
  | SetZero nv nh => setZero z nv nh s
  | WriteBlock i j src => write_area (block_area z s i j) src s
  | WriteColumn j first num src => write_area (column_area z s j first num) src s
  | WriteRow i first num src => write_area (row_area z s i first num) src s
  end.
(** calls one after another, refused ones included (the caller catches the exceptions of EIGENTOOLS_ASSERT, core/include/eigentools.h:20) *)
Definition after (r : result) : bstate := match r with Fine s => s | Refused s => s end.
(** a sequence of calls of one object, blockmatrix_base.h:104-530 *)
Definition history (z : bsize) (cs : list call) (s : bstate) : bstate := fold_left (fun s c => after (do_ z c s)) cs s.

(** ** selection of rows *)
(** the entries which are seen through Eigen::Map (where they exist) (the result of selectRows(), eigentools.h:758-772) *)
Definition seen (m : mat) (v : strided_map) : mat :=
  mkMat (Z.to_nat (map_rows v)) (Z.to_nat (map_cols v))
    (fun i j => match map_get m v (Z.of_nat i) (Z.of_nat j) with Ok x => x | _ => 0%R end).
(** blockmatrix_base.h:366-369 *)
Definition selectRowInBlocksAsMatrix (z : bsize) (s : bstate) (row : Z) : outcome mat :=
  bind (selectRows (s_raw s) (block_rows_num z s) row) (fun v => Ok (seen (s_raw s) v)).
(** blockmatrix.h:192-207: a block matrix with blocks of one row and [t_cols z] columns. The number of rows in a block, not of columns, is
    given to the constructor. *)
Definition selection_size (z : bsize) : bsize := mkSize 1 (t_cols z).
(** blockmatrix.h:200-207 *)
Definition selectRowInBlocks (z : bsize) (s : bstate) (row : Z) : outcome bstate :=
  bind (selectRows (s_raw s) (block_rows_num z s) row) (fun v =>
    construct (selection_size z) (seen (s_raw s) v) UNDEFINED (if 0 <? t_rows z then UNDEFINED else s_rows s)).
