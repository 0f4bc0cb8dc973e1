(** * Constraint types (/repo/core/include/humoto/constraints_base.h:19-106)

    The value UNDEFINED (on which the three predicates throw) is left out: every
    constraint class returns a fixed type from getType() (constraints.h). *)

(** constraints_base.h:22-45 *)
Inductive ctype :=
| ILU | IL | IU | IB | IB0
| GILU | GIL | GIU | GIB | GIB0
| ALU | AL | AU | AB | AB0
| ASLU | ASL | ASU | ASB | ASB0.

(** constraints_base.h:48-65 *)
Definition ct_isEquality (t : ctype) : bool :=
  match t with
  | IB | IB0 | GIB | GIB0 | AB | AB0 | ASB | ASB0 => true
  | _ => false
  end.

(** constraints_base.h:67-86 *)
Definition ct_isSimple (t : ctype) : bool :=
  match t with
  | ILU | IL | IU | IB | IB0 | GILU | GIL | GIU | GIB | GIB0 => true
  | _ => false
  end.

(** constraints_base.h:89-105 *)
Definition ct_isTwoSided (t : ctype) : bool :=
  match t with
  | ILU | GILU | ALU | ASLU => true
  | _ => false
  end.
