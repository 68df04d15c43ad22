(** Straight-line Go code on fixed-size integers.

    The arithmetic of vendor/go.dedis.ch/kyber/v3/group/edwards25519 (fe.go,
    scalar.go) is written without loops and branches: long lists of assignments to
    variables of type int32, int64 and byte.  They are kept here as programs, so
    that the Go statements can be copied one by one (LimbCode.v); what a statement
    does is the Go specification: every operation wraps around. *)
From Coq Require Import ZArith String List.
Import ListNotations.
Local Open Scope Z_scope.

(** int32, int64 and byte *)
Inductive gotype := I32 | I64 | U8.

(** the value of the type that agrees with the number in its last bits *)
Definition wrap (t : gotype) (z : Z) : Z :=
  match t with
  | I32 => (z + 2 ^ 31) mod 2 ^ 32 - 2 ^ 31
  | I64 => (z + 2 ^ 63) mod 2 ^ 64 - 2 ^ 63
  | U8 => z mod 2 ^ 8
  end.

(** Expressions.  The type given to an operation is that of its operands and its
    result.  [>>] of a signed number is arithmetic; it and the operations on bits
    cannot leave the type.  A constant shift count is a [Z]. *)
Inductive expr :=
| Var (x : string)
| Lit (z : Z)
| Add (t : gotype) (a b : expr)
| Sub (t : gotype) (a b : expr)
| Mul (t : gotype) (a b : expr)
| Shl (t : gotype) (a : expr) (n : Z)
| Shr (a : expr) (n : Z)
| Or (a b : expr)
| And (a b : expr)
| Conv (t : gotype) (a : expr).

(** an assignment; [x += e] is [x = x + e].  An element of an array at a constant
    index is a variable with the index in its name. *)
Record stmt := Assign { lhs : string; rhs : expr }.

Definition env := string -> Z.
Definition set (r : env) (x : string) (v : Z) : env :=
  fun y => if String.eqb x y then v else r y.

Fixpoint eval (r : env) (e : expr) : Z :=
  match e with
  | Var x => r x
  | Lit z => z
  | Add t a b => wrap t (eval r a + eval r b)
  | Sub t a b => wrap t (eval r a - eval r b)
  | Mul t a b => wrap t (eval r a * eval r b)
  | Shl t a n => wrap t (Z.shiftl (eval r a) n)
  | Shr a n => Z.shiftr (eval r a) n
  | Or a b => Z.lor (eval r a) (eval r b)
  | And a b => Z.land (eval r a) (eval r b)
  | Conv t a => wrap t (eval r a)
  end.

Fixpoint exec (p : list stmt) (r : env) : env :=
  match p with
  | [] => r
  | s :: p => exec p (set r (lhs s) (eval r (rhs s)))
  end.

Declare Scope go_scope.
Delimit Scope go_scope with go.
Bind Scope go_scope with expr.
Coercion Var : string >-> expr.
Coercion Lit : Z >-> expr.
Notation "x <- e" := (Assign x%string e%go) (at level 80, no associativity) : go_scope.
Notation "a +_32 b" := (Add I32 a b) (at level 50, left associativity) : go_scope.
Notation "a -_32 b" := (Sub I32 a b) (at level 50, left associativity) : go_scope.
Notation "a *_32 b" := (Mul I32 a b) (at level 40, left associativity) : go_scope.
Notation "a <<_32 n" := (Shl I32 a n) (at level 40, left associativity) : go_scope.
Notation "a +_64 b" := (Add I64 a b) (at level 50, left associativity) : go_scope.
Notation "a -_64 b" := (Sub I64 a b) (at level 50, left associativity) : go_scope.
Notation "a *_64 b" := (Mul I64 a b) (at level 40, left associativity) : go_scope.
Notation "a <<_64 n" := (Shl I64 a n) (at level 40, left associativity) : go_scope.
Notation "a >> n" := (Shr a n) (at level 40, left associativity) : go_scope.
Notation "a || b" := (Or a b) (at level 50, left associativity) : go_scope.
Notation "a & b" := (And a b) (at level 40, left associativity) : go_scope.
Definition i32 : expr -> expr := Conv I32.
Definition i64 : expr -> expr := Conv I64.
Definition u8 : expr -> expr := Conv U8.

(** fe.go:64-77: the [r |= ...] in one expression *)
Definition load3 (b0 b1 b2 : expr) : expr :=
  (i64 b0 || i64 b1 <<_64 8 || i64 b2 <<_64 16)%go.
Definition load4 (b0 b1 b2 b3 : expr) : expr :=
  (i64 b0 || i64 b1 <<_64 8 || i64 b2 <<_64 16 || i64 b3 <<_64 24)%go.
