(** * Condensing of a linear system (/repo/core/include/humoto/control_problem.h) *)
From Coq Require Import List Reals Arith Bool.
From Verif Require Import Base RSum Matrix BlockMatrix.
Import ListNotations.
Open Scope R_scope.

(** [A[i]] of a std::vector: out of range is undefined behaviour (e.g. A[i] in control_problem.h:325-367) *)
Definition vec_at {A} (l : list A) (i : nat) : outcome A :=
  match nth_error l i with Some a => Ok a | None => UB end.

(** control_problem.h:325-367, blocks of [n] x [n] and [n] x [m].  A_k may be a scalar in the code (template parameter);
    it is a matrix here. *)
Definition condense (junk : nat -> nat -> R) (n m : nat) (A B : list mat) : outcome (bmat * bmat) :=
  assert_then (length A =? length B)%nat (assert_then (0 <? length A)%nat (
  let N := length A in
  bind (bm_resize junk n n N 1) (fun S0 =>
  bind (bm_setZero n m N N) (fun U0 =>
  bind (bput S0 (N - 1) 0 (mid n)) (fun S1 =>
  bind (vec_at B (N - 1)) (fun Bl =>
  bind (bput U0 (N - 1) (N - 1) Bl) (fun U1 =>
  bind (for_up (N - 1) 0 (fun t SU =>
          let k := (N - 2 - t)%nat in
          bind (for_up (N - 1 - k) (k + 1) (fun i S =>
                  bind (bget S i 0) (fun s => bind (vec_at A (k + 1)) (fun a => bind (mmul_o s a) (bput S i 0)))) (fst SU)) (fun S =>
          bind (bput S k 0 (mid n)) (fun S' =>
          bind (vec_at B k) (fun b =>
          bind (bput (snd SU) k k b) (fun U =>
          bind (for_up (N - 1 - k) (k + 1) (fun i U =>
                  bind (bget S' i 0) (fun s => bind (mmul_o s b) (bput U i k))) U) (fun U' =>
          Ok (S', U'))))))) (S1, U1)) (fun SU =>
  bind (bget_column (fst SU) 0 0 N) (fun s =>
  bind (vec_at A 0) (fun a =>
  bind (mmul_o s a) (fun p =>
  bind (bput_column (fst SU) 0 0 N p) (fun S =>
  Ok (S, snd SU))))))))))))).

(** control_problem.h:382-419, dense matrices *)
Definition condense_dense (junk : nat -> nat -> R) (A B : list mat) : outcome (mat * mat) :=
  assert_then (length A =? length B)%nat (assert_then (0 <? length A)%nat (
  bind (vec_at A 0) (fun A0 =>
  bind (vec_at B 0) (fun B0 =>
  assert_then ((mrows A0 =? mrows B0)%nat && (mcols A0 =? mrows B0)%nat) (
  let N := length A in
  let Ns := mrows B0 in
  let Nu := mcols B0 in
  bind (putb (mkMat (Ns * N) Ns junk) ((N - 1) * Ns) 0 Ns Ns (mid Ns)) (fun S1 =>
  bind (vec_at B (N - 1)) (fun Bl =>
  bind (putb (mzero (Ns * N) (Nu * N)) ((N - 1) * Ns) ((N - 1) * Nu) Ns Nu Bl) (fun U1 =>
  bind (for_up (N - 1) 0 (fun t SU =>
          let k := (N - 2 - t)%nat in
          bind (getb (fst SU) ((k + 1) * Ns) 0 ((N - k - 1) * Ns) Ns) (fun s =>
          bind (vec_at A (k + 1)) (fun a =>
          bind (mmul_o s a) (fun p =>
          bind (putb (fst SU) ((k + 1) * Ns) 0 ((N - k - 1) * Ns) Ns p) (fun S =>
          bind (putb S (k * Ns) 0 Ns Ns (mid Ns)) (fun S' =>
          bind (vec_at B k) (fun b =>
          bind (putb (snd SU) (k * Ns) (k * Nu) Ns Nu b) (fun U =>
          bind (getb S' ((k + 1) * Ns) 0 ((N - k - 1) * Ns) Ns) (fun s' =>
          bind (mmul_o s' b) (fun q =>
          bind (putb U ((k + 1) * Ns) (k * Nu) ((N - k - 1) * Ns) Nu q) (fun U' =>
          Ok (S', U')))))))))))) (S1, U1)) (fun SU =>
  bind (mmul_o (fst SU) A0) (fun S =>
  Ok (S, snd SU))))))))))).

(** control_problem.h:432-464.  The comma initialiser writes B and then the product below it; Eigen asserts that the widths
    agree and that the height is filled exactly. *)
Definition condenseTimeInvariant (junk : nat -> nat -> R) (N : nat) (A B : mat) : outcome (mat * mat) :=
  let rA := mrows A in let cA := mcols A in
  bind (putb (mkMat (rA * N) cA junk) 0 0 rA cA A) (fun S1 =>
  bind (for_up (N - 1) 1 (fun i MS =>
          bind (mmul_o (fst MS) A) (fun M =>
          bind (putb (snd MS) (i * rA) 0 rA cA M) (fun S => Ok (M, S)))) (A, S1)) (fun MS =>
  let S := snd MS in
  let rB := mrows B in let cB := mcols B in
  bind (getb S 0 0 (rB * (N - 1)) cA) (fun s =>
  bind (mmul_o s B) (fun p =>
  let Ucol := mvcat B p in
  bind (for_up N 0 (fun i U =>
          bind (getb Ucol 0 0 (rB * (N - i)) cB) (fun c =>
          putb U (rB * i) (cB * i) (rB * (N - i)) cB c)) (mzero (rB * N) (cB * N))) (fun U =>
  Ok (S, U)))))).

(** control_problem.h:272-304, blocks; [ny] outputs, [n] states, [m] controls *)
Definition condenseOutput (junk : nat -> nat -> R) (ny n m : nat) (D E : list mat) (Ux Uu : bmat) : outcome (bmat * bmat) :=
  let N := num_blocks_vert Ux in
  assert_then (num_blocks_hor Ux =? 1)%nat (
  assert_then ((num_blocks_hor Uu =? N)%nat && (num_blocks_vert Uu =? N)%nat) (
  assert_then (length D =? length E)%nat (assert_then (length E =? N)%nat (
  bind (bm_resize junk ny n N 1) (fun Ox =>
  bind (vec_at D 0) (fun D0 =>
  bind (bput Ox 0 0 D0) (fun Ox =>
  bind (bm_setZero ny m N N) (fun Ou =>
  bind (vec_at E 0) (fun E0 =>
  bind (bput Ou 0 0 E0) (fun Ou =>
  for_up (N - 1) 1 (fun i OO =>
    bind (vec_at D i) (fun Di =>
    bind (bget Ux (i - 1) 0) (fun ux =>
    bind (mmul_o Di ux) (fun px =>
    bind (bput (fst OO) i 0 px) (fun Ox =>
    bind (bget_row Uu (i - 1) 0 i) (fun uu =>
    bind (mmul_o Di uu) (fun pu =>
    bind (bput_row (snd OO) i 0 i pu) (fun Ou =>
    bind (vec_at E i) (fun Ei =>
    bind (bput Ou i i Ei) (fun Ou => Ok (Ox, Ou))))))))))) (Ox, Ou))))))))))).

(** control_problem.h:213-248, time invariant, dense.  N = Ux.rows() / Nx: division by zero when D has no columns. *)
Definition condenseOutput_dense (junk : nat -> nat -> R) (D E Ux Uu : mat) : outcome (mat * mat) :=
  let Nu := mcols E in let Nx := mcols D in let Ny := mrows D in
  if (Nx =? 0)%nat then UB else
  let N := (mrows Ux / Nx)%nat in
  assert_then (mcols Ux =? Nx)%nat (assert_then (mrows Ux =? N * Nx)%nat (
  assert_then (mcols Uu =? N * Nu)%nat (assert_then (mrows Uu =? N * Nx)%nat (
  bind (putb (mkMat (N * Ny) Nx junk) 0 0 Ny Nx D) (fun Ox =>
  bind (putb (mzero (N * Ny) (N * Nu)) 0 0 Ny Nu E) (fun Ou =>
  for_up (N - 1) 1 (fun i OO =>
    bind (getb Ux ((i - 1) * Nx) 0 Nx Nx) (fun ux =>
    bind (mmul_o D ux) (fun px =>
    bind (putb (fst OO) (i * Ny) 0 Ny Nx px) (fun Ox =>
    bind (getb Uu ((i - 1) * Nx) 0 Nx (mcols Uu)) (fun uu =>
    bind (mmul_o D uu) (fun pu =>
    bind (putb (snd OO) (i * Ny) 0 Ny (mcols (snd OO)) pu) (fun Ou =>
    bind (putb Ou (i * Ny) (i * Nu) Ny Nu E) (fun Ou => Ok (Ox, Ou))))))))) (Ox, Ou))))))).

(** control_problem.h:133-189: the controls are split in several groups, [Uu] and [Ou] are lists with one matrix for each
    group.  The assignment of E_0 is at line 168-174. *)
Fixpoint control_offsets (first : nat) (Uu : list bmat) : list nat :=
  match Uu with [] => [] | u :: r => first :: control_offsets (first + block_cols u) r end.
(** control_problem.h:133-189, the whole function *)
Definition condenseOutput_groups (junk : nat -> nat -> R) (ny n : nat) (D E : list mat) (Ux : bmat) (Uu : list bmat)
  : outcome (bmat * list bmat) :=
  let N := num_blocks_vert Ux in
  let offs := control_offsets 0 Uu in
  assert_then (num_blocks_hor Ux =? 1)%nat (
  assert_then (length D =? length E)%nat (assert_then (length E =? N)%nat (
  bind (bm_resize junk ny n N 1) (fun Ox =>
  bind (vec_at D 0) (fun D0 =>
  bind (bput Ox 0 0 D0) (fun Ox =>
  bind (for_up (length Uu) 0 (fun j Ou =>
          bind (vec_at Uu j) (fun u => bind (bm_setZero ny (block_cols u) N N) (fun o => Ok (Ou ++ [o])))) []) (fun Ou =>
  bind (for_up (length Uu) 0 (fun j Ou =>
          bind (vec_at Uu j) (fun u => bind (vec_at offs j) (fun off => bind (vec_at E 0) (fun E0 =>
          bind (getb E0 0 off ny (block_cols u)) (fun e =>
          bind (vec_at Ou j) (fun o =>
          bind (bput o (N - 1) (N - 1) e) (fun o' => Ok (update Ou j o')))))))) Ou) (fun Ou =>
  for_up (N - 1) 1 (fun i OO =>
    bind (vec_at D i) (fun Di =>
    bind (bget Ux (i - 1) 0) (fun ux =>
    bind (mmul_o Di ux) (fun px =>
    bind (bput (fst OO) i 0 px) (fun Ox =>
    bind (for_up (length Uu) 0 (fun j Ou =>
            bind (vec_at Uu j) (fun u => bind (vec_at Ou j) (fun o =>
            bind (bget_row u (i - 1) 0 i) (fun uu =>
            bind (mmul_o Di uu) (fun pu =>
            bind (bput_row o i 0 i pu) (fun o =>
            bind (vec_at offs j) (fun off => bind (vec_at E i) (fun Ei =>
            bind (getb Ei 0 off ny (block_cols u)) (fun e =>
            bind (bput o i i e) (fun o' => Ok (update Ou j o'))))))))))) (snd OO)) (fun Ou =>
    Ok (Ox, Ou))))))) (Ox, Ou))))))))).
