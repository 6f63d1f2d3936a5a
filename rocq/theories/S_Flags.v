(** Specification vocabulary for flag inference: what a program uses, read off the listing
    of its instructions (name and argument), pseudo instructions left out. *)
From Verif Require Import PyBase OpTable CPy M_Instr M_Tables M_Concrete M_Flags S_Args.
Open Scope string_scope.
Open Scope list_scope.
Open Scope Z_scope.

Definition listing : Type := list (string * pyobj).

Definition listing_of (l : list bitem) : listing :=
  flat_map (fun x => match x with BI i => [(i_name i, i_arg i)] | _ => [] end) l.
Definition clisting_of (l : list citem) : listing :=
  flat_map (fun x => match x with CI c => [(c_name c, c_pyarg c)] | CSet _ => [] end) l.

Definition uses (names : list string) (P : listing) : Prop :=
  exists n a, In (n, a) P /\ In n names.

(** Opcodes that only exist in the code of async functions, per version. *)
Definition async_names (v : pyver) : list string :=
  ["GET_AWAITABLE"; "GET_AITER"; "GET_ANEXT"; "BEFORE_ASYNC_WITH"; "END_ASYNC_FOR"]
  ++ (if PY311 v then [] else ["SETUP_ASYNC_WITH"])
  ++ (if PY311 v && negb (PY312 v) then ["ASYNC_GEN_WRAP"] else []).

(** From 3.11 on a YIELD_VALUE is followed by a RESUME whose low two bits say what it is
    for: 3 after an await, something else after a yield. *)
Definition resumed (P : listing) (await : bool) : Prop :=
  exists pre y a z post, P = pre ++ ("YIELD_VALUE", y) :: ("RESUME", a) :: post
    /\ as_int a = Some z /\ (z mod 4 = 3 <-> await = true).

Definition awaits (v : pyver) (P : listing) : Prop :=
  uses (async_names v) P \/ (PY311 v = true /\ resumed P true).
Definition yields (v : pyver) (P : listing) : Prop :=
  if PY311 v then resumed P false else uses ["YIELD_VALUE"] P.
(** generator-like without a plain yield: [yield from], or the generator prologue *)
Definition delegates (v : pyver) (P : listing) : Prop :=
  uses [if PY311 v then "RETURN_GENERATOR" else "YIELD_FROM"] P.
Definition uses_names (P : listing) : Prop := uses ["LOAD_NAME"; "STORE_NAME"; "DELETE_NAME"] P.

(** An argument that designates a cell or free variable (alone or in a pair), in an
    instruction that is not a constant load. *)
Definition designates (a : pyobj) : Prop :=
  match a with
  | OCell _ | OFree _ => True
  | OTuple [x; y] => (exists s, x = OCell s \/ x = OFree s) \/ (exists s, y = OCell s \/ y = OFree s)
  | _ => False
  end.
Definition touches_cells (T : optable) (P : listing) : Prop :=
  exists n a op, In (n, a) P /\ opmap T n = Some op /\ ~ In op (t_hasconst T) /\ designates a.

(** From 3.11 on, every YIELD_VALUE is directly followed by a RESUME (as compiled code is) *)
Definition resumes_follow (v : pyver) (P : listing) : Prop :=
  PY311 v = true -> forall pre y post, P = pre ++ ("YIELD_VALUE", y) :: post ->
    exists a z rest, post = ("RESUME", a) :: rest /\ as_int a = Some z.

(** The inferred word has flag [f] *)
Definition has (flags f : Z) : Prop := Z.land flags f <> 0.

(** Was the code asynchronous before? *)
Definition was_async (flags : Z) : Prop := has flags COROUTINE \/ has flags ASYNC_GENERATOR.
Definition was_iterable (flags : Z) : Prop := ~ was_async flags /\ has flags ITERABLE_COROUTINE.

(** The result is native async code: forced, inherited or required by an opcode, unless
    forbidden or kept as an iterable coroutine. *)
Definition async_result (v : pyver) (flags : Z) (is_async : option bool) (P : listing) : Prop :=
  is_async <> Some false
  /\ (was_async flags \/ (~ was_iterable flags /\ (is_async = Some true \/ awaits v P))).

(** Facts about the opcode table used by flag inference: the opcodes it looks for are
    neither variable accesses nor constants. *)
Definition special_names (v : pyver) : list string :=
  ["LOAD_NAME"; "STORE_NAME"; "DELETE_NAME"; "YIELD_VALUE"; "YIELD_FROM"; "RETURN_GENERATOR";
   "RESUME"] ++ async_names v.
Definition wf_flags (v : pyver) (T : optable) : bool :=
  forallb (fun n => match opmap T n with
                    | Some o => negb (z_mem o (t_hasfree T)) && negb (z_mem o (t_haslocal T))
                    | None => true end) (special_names v).

(** A Bytecode or a ConcreteBytecode *)
Inductive code : Type := Abstract (b : bytecode) | Concrete (cb : cbytecode).
Definition code_flags (c : code) : Z :=
  match c with Abstract b => m_flags (b_meta b) | Concrete cb => m_flags (cb_meta cb) end.
Definition code_listing (c : code) : listing :=
  match c with Abstract b => listing_of (b_items b) | Concrete cb => clisting_of (cb_items cb) end.
Definition infer (v : pyver) (T : optable) (c : code) (is_async : option bool) : res Z :=
  match c with
  | Abstract b => infer_flags_bytecode v T b is_async
  | Concrete cb => infer_flags_concrete v T cb is_async
  end.
(** Every instruction is legal (as everything built through the API is, C05). *)
Definition legal_code (v : pyver) (T : optable) (c : code) : Prop :=
  match c with
  | Abstract b => Forall (fun x => match x with BI i => legal_instr v T i | _ => True end) (b_items b)
  | Concrete cb => Forall (fun x => match x with CI c => legal_cinstr v T c | _ => True end) (cb_items cb)
  end.

(** Every TryBegin is closed by a TryEnd before the next TryBegin. *)
Definition not_nested (l : list bitem) : Prop :=
  forall pre id t la d mid id' t' la' d' post,
    l = pre ++ BTB id t la d :: mid ++ BTB id' t' la' d' :: post -> exists k, In (BTE k) mid.
Definition code_not_nested (c : code) : Prop :=
  match c with Abstract b => not_nested (b_items b) | Concrete _ => True end.
