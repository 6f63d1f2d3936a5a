(** Model of format_bytecode and dump_bytecode (__init__.py).

    [rp] is Python's repr(), left abstract.  A StringIO is modelled by the list of the strings
    written to it.  UNSET is an int subclass whose value is 0 and whose comparison methods
    return NotImplemented, hence [str(UNSET)] is "0" and [UNSET != n] is [0 != n] for every
    int [n] and False for UNSET itself (instr.py:161-218): a line number that is UNSET is
    modelled by 0. *)
From Verif Require Import PyBase PyText OpTable M_Instr M_Tables M_Concrete M_Convert M_Bytecode M_Cfg.
Open Scope string_scope.
Open Scope list_scope.
Open Scope Z_scope.

(** The line number [instr.lineno], None excluded (instr.py:624-626) *)
Definition shown_lineno (l : linev) : option Z :=
  match l with LLine z => Some z | LUnset => Some 0 | LNone => None end.

(** The variables of format_bytecode that change: cur_lineno, prev_lineno, indent and
    try_begins (__init__.py:60,121-124) *)
Record fmt : Type := mkFmt { f_cur : Z; f_prev : option Z; f_indent : string; f_tbs : list nat }.

(** __init__.py:62-72 format_line *)
Definition format_line (lineno : bool) (F : fmt) (index : Z) (line : string) : fmt * string :=
  if lineno then
    if match f_prev F with Some p => negb (f_cur F =? p) | None => true end then
      (mkFmt (f_cur F) (Some (f_cur F)) (f_indent F) (f_tbs F),
       ("L." ++ pad3 (dec (f_cur F)) ++ " " ++ pad3 (dec index) ++ ": " ++ line)%string)
    else (F, ("      " ++ pad3 (dec index) ++ ": " ++ line)%string)
  else (F, line).

(** The dict [labels] or [cfg_labels]: what it gives for a Label and for the id of a block *)
Record names : Type := mkNames { n_label : nat -> option string; n_block : nat -> option string }.

(** __init__.py:74-91 format_instr *)
Definition format_instr (rp : pyobj -> string) (L : names) (name : string) (arg : pyobj) : string :=
  match arg with
  | OUnset => name
  | _ =>
      let arg := match arg with
        | OLabel n => match n_label L n with Some s => ("<" ++ s ++ ">")%string | None => "<error: unknown label>" end
        | OBlock n => match n_block L n with Some s => ("<" ++ s ++ ">")%string | None => "<error: unknown block>" end
        | _ => rp arg
        end in
      (name ++ " " ++ arg)%string
  end.

(** __init__.py:93-113 format_try_begin *)
Definition format_try_begin (L : names) (F : fmt) (id : nat) (target : pyobj) (lasti : bool) (depth : option Z)
  : fmt * string :=
  let found := match target with OLabel n => n_label L n | OBlock n => n_block L n | _ => None end in
  let arg := match found with Some s => ("<" ++ s ++ ">")%string | None => "<error: unknown label>" end in
  let line := ("TryBegin " ++ dec_nat (length (f_tbs F)) ++ " -> " ++ arg
               ++ " [" ++ dec (match depth with Some d => d | None => 0 end) ++ "]"
               ++ (if lasti then " last_i" else ""))%string in
  (mkFmt (f_cur F) (f_prev F) (f_indent F) (f_tbs F ++ [id]), line).

(** [try_begins.index(entry) if entry in try_begins else "<unknwon>"] *)
Fixpoint tb_index (id : nat) (l : list nat) : option nat :=
  match l with
  | [] => None
  | x :: l => if Nat.eqb x id then Some 0%nat else option_map S (tb_index id l)
  end.

(** __init__.py:115-117 format_try_end *)
Definition format_try_end (F : fmt) (id : nat) : string :=
  ("TryEnd (" ++ match tb_index id (f_tbs F) with Some i => dec_nat i | None => "<unknwon>" end ++ ")")%string.

Definition set_cur (F : fmt) (l : linev) : fmt :=
  match shown_lineno l with Some z => mkFmt z (f_prev F) (f_indent F) (f_tbs F) | None => F end.
Definition set_indent (F : fmt) (s : string) : fmt := mkFmt (f_cur F) (f_prev F) s (f_tbs F).

(** *** ConcreteBytecode *)

Definition no_names : names := mkNames (fun _ => None) (fun _ => None).

(** __init__.py:128-143 the loop.  SetLineno has no attribute name, format_instr raises. *)
Fixpoint format_concrete_loop (rp : pyobj -> string) (lineno : bool) (F : fmt) (offset : Z) (l : list citem)
  : res (list string) :=
  match l with
  | [] => Ok []
  | CSet _ :: _ => Err AttributeError
  | CI c :: r =>
      let F := set_cur F (loc_lineno (c_loc c)) in
      let text := format_instr rp no_names (c_name c) (match c_arg c with Some a => OInt a | None => OUnset end) in
      let '(F, line) := if lineno then format_line lineno F offset text
                        else (F, (pad3 (dec offset) ++ "    " ++ text)%string) in
      ws <- format_concrete_loop rp lineno F (offset + c_size c) r ;;
      Ok ((line ++ nl)%string :: ws)
  end.

(** __init__.py:148-153 one exception table entry *)
Definition format_entry (e : exentry) : string :=
  (dec (e_start e) ++ " to " ++ dec (e_stop e) ++ " -> " ++ dec (e_target e) ++ " [" ++ dec (e_depth e) ++ "]"
   ++ (if e_lasti e then " lasti" else "") ++ nl)%string.

(** __init__.py:126-153 and 213 *)
Definition format_concrete (rp : pyobj -> string) (lineno : bool) (cb : cbytecode) : res string :=
  ws <- format_concrete_loop rp lineno (mkFmt (m_first_lineno (cb_meta cb)) None "    " []) 0 (cb_items cb) ;;
  let ex := match cb_ex cb with
            | [] => []
            | _ => [nl; ("Exception table:" ++ nl)%string] ++ map format_entry (cb_ex cb)
            end in
  Ok (chop 1 (String.concat "" (ws ++ ex))).

(** *** Bytecode *)

(** __init__.py:156-159 labels *)
Fixpoint format_labels (index : nat) (labels : list (nat * string)) (l : list bitem) : list (nat * string) :=
  match l with
  | [] => labels
  | BLabel n :: r => format_labels (S index) (dset Nat.eqb labels n ("label_instr" ++ dec_nat index)%string) r
  | _ :: r => format_labels (S index) labels r
  end.

(** __init__.py:161-178 the loop *)
Fixpoint format_bytecode_loop (rp : pyobj -> string) (lineno : bool) (labels : list (nat * string)) (F : fmt)
  (index : nat) (l : list bitem) : res (list string) :=
  let L := mkNames (dget Nat.eqb labels) (fun _ => None) in
  match l with
  | [] => Ok []
  | it :: r =>
      '(F, ws) <- match it with
        | BLabel n => label <- of_option KeyError (dget Nat.eqb labels n) ;;
            Ok (F, (if Nat.eqb index 0 then [] else [nl]) ++ [(label ++ ":" ++ nl)%string])
        | BTB id t la d =>
            let ind := f_indent F in
            let '(F, line) := format_try_begin L F id t la d in
            let '(F, line) := format_line lineno F (Z.of_nat index) line in
            Ok (set_indent F (f_indent F ++ "  "), [(ind ++ line ++ nl)%string])
        | BTE id =>
            let F := set_indent F (chop 2 (f_indent F)) in
            let '(F, line) := format_line lineno F (Z.of_nat index) (format_try_end F id) in
            Ok (F, [(f_indent F ++ line ++ nl)%string])
        | BSet _ => Err AttributeError
        | BI i =>
            let F := set_cur F (loc_lineno (i_loc i)) in
            let '(F, line) := format_line lineno F (Z.of_nat index) (format_instr rp L (i_name i) (i_arg i)) in
            Ok (F, [(f_indent F ++ line ++ nl)%string])
        end ;;
      ws' <- format_bytecode_loop rp lineno labels F (Datatypes.S index) r ;;
      Ok (ws ++ ws')
  end.

(** __init__.py:155-179 and 213; the first loop ends with the exception of Bytecode.__iter__ *)
Definition format_bytecode (rp : pyobj -> string) (lineno : bool) (b : bytecode) : res string :=
  match iterate false (b_items b) with
  | (_, Some e) => Err e
  | (l, None) =>
      ws <- format_bytecode_loop rp lineno (format_labels 0 [] l)
              (mkFmt (m_first_lineno (b_meta b)) None "    " []) 0 l ;;
      Ok (chop 1 (String.concat "" (ws ++ [nl])))
  end.

(** *** ControlFlowGraph *)

(** __init__.py:182-184 cfg_labels *)
Fixpoint format_blocks (index : nat) (labels : list (nat * string)) (l : list nat) : list (nat * string) :=
  match l with
  | [] => labels
  | b :: r => format_blocks (S index) (dset Nat.eqb labels b ("block" ++ dec_nat index)%string) r
  end.

(** __init__.py:188-206 the elements of a block *)
Fixpoint format_block_loop (T : optable) (rp : pyobj -> string) (lineno : bool) (labels : list (nat * string))
  (F : fmt) (seen : bool) (index : nat) (l : list bitem) : res (fmt * list string) :=
  let L := mkNames (fun _ => None) (dget Nat.eqb labels) in
  match l with
  | [] => Ok (F, [])
  | it :: r =>
      _ <- elem_check T it r ;;
      '(F, seen, w) <- match it with
        | BLabel _ => Err ValueError
        | BTB id t la d =>
            let ind := f_indent F in
            let '(F, line) := format_try_begin L F id t la d in
            let '(F, line) := format_line lineno F (Z.of_nat index) line in
            Ok (set_indent F (f_indent F ++ "  "), seen, (ind ++ line ++ nl)%string)
        | BTE id =>
            let F := if seen then set_indent F (chop 2 (f_indent F)) else F in
            let '(F, line) := format_line lineno F (Z.of_nat index) (format_try_end F id) in
            Ok (F, seen, (f_indent F ++ line ++ nl)%string)
        | BSet _ => Err AttributeError
        | BI i =>
            let F := set_cur F (loc_lineno (i_loc i)) in
            let '(F, line) := format_line lineno F (Z.of_nat index) (format_instr rp L (i_name i) (i_arg i)) in
            Ok (F, true, (f_indent F ++ line ++ nl)%string)
        end ;;
      '(F, ws) <- format_block_loop T rp lineno labels F seen (Datatypes.S index) r ;;
      Ok (F, w :: ws)
  end.

(** __init__.py:187-209 one block *)
Definition format_block (T : optable) (rp : pyobj -> string) (lineno : bool) (g : cfg) (labels : list (nat * string))
  (F : fmt) (b : nat) : res (fmt * list string) :=
  label <- of_option KeyError (dget Nat.eqb labels b) ;;
  '(F, ws) <- format_block_loop T rp lineno labels F false 0 (k_items (blk g b)) ;;
  next <- match k_next (blk g b) with
    | None => Ok []
    | Some n => label <- of_option KeyError (dget Nat.eqb labels n) ;;
                Ok [(f_indent F ++ "-> " ++ label ++ nl)%string]
    end ;;
  Ok (F, (label ++ ":" ++ nl)%string :: ws ++ next ++ [nl]).

Fixpoint format_cfg_loop (T : optable) (rp : pyobj -> string) (lineno : bool) (g : cfg) (labels : list (nat * string))
  (F : fmt) (l : list nat) : res (list string) :=
  match l with
  | [] => Ok []
  | b :: r => '(F, ws) <- format_block T rp lineno g labels F b ;;
              ws' <- format_cfg_loop T rp lineno g labels F r ;;
              Ok (ws ++ ws')
  end.

(** __init__.py:181-209 and 213 *)
Definition format_cfg (T : optable) (rp : pyobj -> string) (lineno : bool) (g : cfg) : res string :=
  ws <- format_cfg_loop T rp lineno g (format_blocks 1 [] (g_order g))
          (mkFmt (m_first_lineno (g_meta g)) None "    " []) (g_order g) ;;
  Ok (chop 1 (String.concat "" ws)).

(** __init__.py:216-221 dump_bytecode: what is printed *)
Definition dump {A} (format : bool -> A -> res string) (lineno : bool) (x : A) : res string :=
  s <- format lineno x ;; Ok (s ++ nl)%string.
