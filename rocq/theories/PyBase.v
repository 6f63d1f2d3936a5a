(** Shared vocabulary of the model: Python exceptions as values, Python lists and
    strings, and the interpreter versions supported by the library. *)
From Coq Require Export String Ascii.
From Coq Require Export List ZArith Bool Lia.
Export ListNotations.
Open Scope Z_scope.

(** ** Exceptions *)

(** The Python exception classes that the modelled code can raise. *)
Inductive exn : Set :=
| TypeError | ValueError | RuntimeError | AssertionError
| KeyError | IndexError | StopIteration
| StructError                (* struct.error *)
| AttributeError
| Nontermination.            (* not an exception: the Python loop never ends *)

(** Result of a Python call: a value, or the exception it raised. *)
Inductive res (A : Type) : Type :=
| Ok (a : A)
| Err (e : exn).
Arguments Ok {A} a.
Arguments Err {A} e.

Definition bind {A B} (m : res A) (f : A -> res B) : res B :=
  match m with Ok a => f a | Err e => Err e end.

Notation "x <- m ;; k" := (bind m (fun x => k))
  (at level 61, m at next level, right associativity).
Notation "' p <- m ;; k" := (bind m (fun p => k))
  (at level 61, p pattern, m at next level, right associativity).

Definition guard (b : bool) (e : exn) : res unit := if b then Ok tt else Err e.

Definition is_ok {A} (r : res A) : bool := match r with Ok _ => true | Err _ => false end.

(** [for x in l: acc = f(acc, x)] where the body may raise. *)
Fixpoint foldM {A B} (f : A -> B -> res A) (l : list B) (a : A) : res A :=
  match l with
  | [] => Ok a
  | x :: l' => a' <- f a x ;; foldM f l' a'
  end.

Fixpoint mapM {A B} (f : A -> res B) (l : list A) : res (list B) :=
  match l with
  | [] => Ok []
  | x :: l' => y <- f x ;; ys <- mapM f l' ;; Ok (y :: ys)
  end.

(** ** Lists *)

Definition zlen {A} (l : list A) : Z := Z.of_nat (length l).

(** Python indexing [l[i]], negative indices included; IndexError when out of range. *)
Definition py_index {A} (l : list A) (i : Z) : res A :=
  let j := if i <? 0 then i + zlen l else i in
  if (j <? 0) || (zlen l <=? j) then Err IndexError
  else match nth_error l (Z.to_nat j) with Some x => Ok x | None => Err IndexError end.

(** [l.index(x)] on lists of str. *)
Fixpoint str_index (x : string) (l : list string) : option nat :=
  match l with
  | [] => None
  | y :: l' => if String.eqb x y then Some 0%nat else option_map S (str_index x l')
  end.

Definition str_mem (x : string) (l : list string) : bool := existsb (String.eqb x) l.
Definition z_mem (x : Z) (l : list Z) : bool := existsb (Z.eqb x) l.
Definition nat_mem (x : nat) (l : list nat) : bool := existsb (Nat.eqb x) l.

(** Functional update of a list position (no-op out of range). *)
Fixpoint upd {A} (n : nat) (x : A) (l : list A) : list A :=
  match l, n with
  | [], _ => []
  | _ :: l', O => x :: l'
  | y :: l', S n' => y :: upd n' x l'
  end.

(** ** Association lists used for Python dicts (insertion order kept, as in dict). *)
Section Dict.
  Context {K V : Type} (eqb : K -> K -> bool).
  Fixpoint dget (d : list (K * V)) (k : K) : option V :=
    match d with
    | [] => None
    | (k', v) :: d' => if eqb k k' then Some v else dget d' k
    end.
  Fixpoint dset (d : list (K * V)) (k : K) (v : V) : list (K * V) :=
    match d with
    | [] => [(k, v)]
    | (k', v') :: d' => if eqb k k' then (k', v) :: d' else (k', v') :: dset d' k v
    end.
  Definition dmem (d : list (K * V)) (k : K) : bool :=
    match dget d k with Some _ => true | None => false end.
  Fixpoint ddel (d : list (K * V)) (k : K) : list (K * V) :=
    match d with
    | [] => []
    | (k', v') :: d' => if eqb k k' then d' else (k', v') :: ddel d' k
    end.
End Dict.

Definition of_option {A} (e : exn) (o : option A) : res A :=
  match o with Some a => Ok a | None => Err e end.

(** ** Strings: Python's [sub in s] and [s.startswith(p)]. *)
Definition str_contains (sub s : string) : bool :=
  match String.index 0 sub s with Some _ => true | None => false end.

(** ** Interpreter versions *)

(** The versions for which the library has distinct behaviour
    (utils.py:4-7, and the [sys.version_info < (3, 9)] tests). *)
Inductive pyver : Set := V38 | V39 | V310 | V311 | V312 | V313.

Definition minor (v : pyver) : Z :=
  match v with V38 => 8 | V39 => 9 | V310 => 10 | V311 => 11 | V312 => 12 | V313 => 13 end.

(** utils.py:4-7 *)
Definition PY310 (v : pyver) : bool := 10 <=? minor v.
Definition PY311 (v : pyver) : bool := 11 <=? minor v.
Definition PY312 (v : pyver) : bool := 12 <=? minor v.
Definition PY313 (v : pyver) : bool := 13 <=? minor v.

(** concrete.py:60  OFFSET_AS_INSTRUCTION = PY310 *)
Definition OFFSET_AS_INSTRUCTION (v : pyver) : bool := PY310 v.
