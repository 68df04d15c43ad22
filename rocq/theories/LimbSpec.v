(** Words for the theorems on the machine integers of the curve library. *)
From Coq Require Import String.
From Verif Require Import Base GoIntModel SignModel LimbModel.
Local Open Scope Z_scope.

(** ** Nothing wraps around *)

Definition lowest (t : gotype) : Z := match t with I32 => - 2 ^ 31 | I64 => - 2 ^ 63 | U8 => 0 end.
Definition highest (t : gotype) : Z := match t with I32 => 2 ^ 31 - 1 | I64 => 2 ^ 63 - 1 | U8 => 255 end.
Definition in_type (t : gotype) (z : Z) : Prop := lowest t <= z <= highest t.

(** No operation of the expression leaves its type, no conversion to a signed type
    loses anything.  Conversions to byte are meant to cut; [cut] says that only the
    byte is used, so that a shift may lose bits at the top. *)
Fixpoint stays (cut : bool) (r : env) (e : expr) : Prop :=
  match e with
  | Var _ | Lit _ => True
  | Add t a b => stays false r a /\ stays false r b /\ in_type t (eval r a + eval r b)
  | Sub t a b => stays false r a /\ stays false r b /\ in_type t (eval r a - eval r b)
  | Mul t a b => stays false r a /\ stays false r b /\ in_type t (eval r a * eval r b)
  | Shl t a n => stays false r a /\ (cut = true \/ in_type t (eval r a * 2 ^ n))
  | Shr a _ => stays false r a
  | Or a b => stays cut r a /\ stays cut r b
  | And a b => stays false r a /\ stays false r b
  | Conv U8 a => stays true r a
  | Conv t a => stays false r a /\ in_type t (eval r a)
  end.

Fixpoint never_wraps (p : list stmt) (r : env) : Prop :=
  match p with
  | [] => True
  | s :: p => stays false r (rhs s) /\ never_wraps p (set r (lhs s) (eval r (rhs s)))
  end.

(** ** Limbs *)

(** weighted sums *)
Fixpoint wsum (w l : list Z) : Z :=
  match w, l with a :: w, x :: l => a * x + wsum w l | _, _ => 0 end.

(** fe.go:9-16: the number of ten limbs *)
Definition fe_weights : list Z :=
  [2 ^ 0; 2 ^ 26; 2 ^ 51; 2 ^ 77; 2 ^ 102; 2 ^ 128; 2 ^ 153; 2 ^ 179; 2 ^ 204; 2 ^ 230].
Definition fval (f : fe) : Z := wsum fe_weights f.

(** [|f[i]|] is at most [e] for even and [o] for odd [i] *)
Definition alternating (e o : Z) : list Z := [e; o; e; o; e; o; e; o; e; o].
Definition bnd (e o : Z) (f : fe) : Prop := Forall2 (fun b x => - b <= x <= b) (alternating e o) f.

(** what the multiplications take: 1.55 * 2^26 and 1.55 * 2^25 *)
Definition me : Z := 104018739.
Definition mo : Z := 52009369.
(** what they give *)
Definition te : Z := 2 ^ 25.
Definition to_ : Z := 2 ^ 24 + 1000.
Definition wide : fe -> Prop := bnd me mo.
Definition tight : fe -> Prop := bnd te to_.

(** ** One array in the place of another *)

(** the program for a call in which the array [xs] is the array [ys] *)
Fixpoint onto (xs ys : list string) (x : string) : string :=
  match xs, ys with
  | x' :: xs, y :: ys => if String.eqb x x' then y else onto xs ys x
  | _, _ => x
  end.
Fixpoint rename (f : string -> string) (e : expr) : expr :=
  match e with
  | Var x => Var (f x)
  | Lit z => Lit z
  | Add t a b => Add t (rename f a) (rename f b)
  | Sub t a b => Sub t (rename f a) (rename f b)
  | Mul t a b => Mul t (rename f a) (rename f b)
  | Shl t a n => Shl t (rename f a) n
  | Shr a n => Shr (rename f a) n
  | Or a b => Or (rename f a) (rename f b)
  | And a b => And (rename f a) (rename f b)
  | Conv t a => Conv t (rename f a)
  end.
Definition renames (f : string -> string) (p : list stmt) : list stmt :=
  map (fun s => Assign (f (lhs s)) (rename f (rhs s))) p.

(** ** Computing with points *)

(** what one can do with points: the methods of kyber.Point *)
Inductive points :=
| PBase
| PMul (s : bytes) (a : points)
| PAdd (a b : points)
| PSub (a b : points)
| PRead (s : bytes).

(** the point, or [None] if something that is read is none *)
Fixpoint run (C : Curve) (scalar : bytes -> Sc C) (e : points) : option (Pt C) :=
  match e with
  | PBase => Some (base C)
  | PMul s a => match run C scalar a with Some p => Some (pmul C (scalar s) p) | None => None end
  | PAdd a b => match run C scalar a, run C scalar b with Some p, Some q => Some (padd C p q) | _, _ => None end
  | PSub a b => match run C scalar a, run C scalar b with Some p, Some q => Some (psub C p q) | _, _ => None end
  | PRead s => pdec C s
  end.

(** all scalars in it have 32 bytes *)
Fixpoint scalars32 (e : points) : Prop :=
  match e with
  | PBase | PRead _ => True
  | PMul s a => length s = 32%nat /\ scalars32 a
  | PAdd a b | PSub a b => scalars32 a /\ scalars32 b
  end.
