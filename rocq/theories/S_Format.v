(** Specification of the text returned by format_bytecode (C63). *)
From Verif Require Import PyBase PyText OpTable M_Instr M_Tables M_Concrete M_Cfg.
Open Scope string_scope.
Open Scope list_scope.
Open Scope Z_scope.

(** Text of the name of a label: its position in the program; of a block: its rank. *)
Definition label_name (prog : list bitem) (n : nat) (s : string) : Prop :=
  exists k, nth_error prog k = Some (BLabel n) /\ s = ("label_instr" ++ dec (Z.of_nat k))%string.
Definition block_name (order : list nat) (n : nat) (s : string) : Prop :=
  exists k, nth_error order k = Some n /\ s = ("block" ++ dec (Z.of_nat k + 1))%string.

(** A target: its name between angle brackets, or an error if it has none. *)
Definition target_text (name : string -> Prop) (error : string) (s : string) : Prop :=
  (exists t, name t /\ s = ("<" ++ t ++ ">")%string) \/ ((forall t, ~ name t) /\ s = error).

Section Shows.
  Context (rp : pyobj -> string) (label block : nat -> string -> Prop).

  (** The argument of an instruction *)
  Definition arg_text (o : pyobj) (s : string) : Prop :=
    match o with
    | OLabel n => target_text (label n) "<error: unknown label>" s
    | OBlock n => target_text (block n) "<error: unknown block>" s
    | _ => s = rp o
    end.
  Definition instr_text (name : string) (o : pyobj) (line : string) : Prop :=
    (o = OUnset /\ line = name) \/ (o <> OUnset /\ exists s, arg_text o s /\ line = (name ++ " " ++ s)%string).

  Definition is_tb (it : bitem) : bool := match it with BTB _ _ _ _ => true | _ => false end.

  (** The text for an element, [before] being the elements shown before it.  A TryBegin is shown by
      the number of TryBegins before it, and a TryEnd by the number of the TryBegin it refers to. *)
  Definition element_text (before : list bitem) (it : bitem) (line : string) : Prop :=
    match it with
    | BI i => instr_text (i_name i) (i_arg i) line
    | BTB id t la d =>
        exists s, target_text (fun s => match t with OLabel n => label n s | OBlock n => block n s | _ => False end)
                    "<error: unknown label>" s
          /\ line = ("TryBegin " ++ dec (zlen (filter is_tb before)) ++ " -> " ++ s
                     ++ " [" ++ dec (match d with Some z => z | None => 0 end) ++ "]"
                     ++ (if la then " last_i" else ""))%string
    | BTE id =>
        (exists k t la d, nth_error (filter is_tb before) k = Some (BTB id t la d)
           /\ line = ("TryEnd (" ++ dec (Z.of_nat k) ++ ")")%string)
        \/ ((forall t la d, ~ In (BTB id t la d) before) /\ line = "TryEnd (<unknwon>)")
    | _ => False
    end.

  (** The line number in force after some elements *)
  Definition line_after (first : Z) (l : list bitem) : Z :=
    fold_left (fun cur it => match it with
                 | BI i => match i_loc i with Some (mkLoc (Some z) _ _ _) => z | _ => cur end
                 | _ => cur end) l first.

  (** With lineno=True a line begins by the number of the line if it changes, and the index *)
  Definition header (lineno : bool) (first : Z) (before : list bitem) (it : bitem) (index : nat) : string :=
    if lineno then
      let cur := line_after first (before ++ [it]) in
      if existsb (fun it => match it with BLabel _ => false | _ => true end) before && (line_after first before =? cur)
      then ("      " ++ pad3 (dec (Z.of_nat index)) ++ ": ")%string
      else ("L." ++ pad3 (dec cur) ++ " " ++ pad3 (dec (Z.of_nat index)) ++ ": ")%string
    else "".

  (** The line for an element *)
  Definition shows (lineno : bool) (first : Z) (before : list bitem) (index : nat) (it : bitem) (line : string) : Prop :=
    match it with
    | BLabel n => exists s, label n s /\ line = (s ++ ":")%string
    | _ => exists ind text, element_text before it text
             /\ line = (spaces ind ++ header lineno first before it index ++ text)%string
    end.
End Shows.

(** No SetLineno; every instruction has a location (its line number may be None) *)
Definition no_set_lineno (l : list bitem) : Prop := forall z, ~ In (BSet z) l.
Definition located (l : list bitem) : Prop := forall i, In (BI i) l -> i_loc i <> None.

(** The lines of the text of a Bytecode: one for each element, with an empty line before a label *)
Fixpoint layout (index : nat) (items : list bitem) (lines : list string) : list string :=
  match items, lines with
  | it :: items, s :: lines =>
      match it with
      | BLabel _ => match index with O => [s] | _ => [""; s] end
      | _ => [s]
      end ++ layout (S index) items lines
  | _, _ => []
  end.

(** The lines of the text of a ConcreteBytecode *)
Definition offset_of (before : list citem) : Z :=
  fold_right Z.add 0 (map (fun it => match it with CI c => c_size c | CSet _ => 0 end) before).
Definition cline_after (first : Z) (l : list citem) : Z :=
  fold_left (fun cur it => match it with
               | CI c => match c_loc c with Some (mkLoc (Some z) _ _ _) => z | _ => cur end
               | _ => cur end) l first.
Definition shows_concrete (rp : pyobj -> string) (lineno : bool) (first : Z) (before : list citem) (it : citem)
  (line : string) : Prop :=
  match it with
  | CSet _ => False
  | CI c =>
      let text := (c_name c ++ match c_arg c with Some a => " " ++ rp (OInt a) | None => "" end)%string in
      let offset := pad3 (dec (offset_of before)) in
      line = (if lineno then
                let cur := cline_after first (before ++ [it]) in
                if match before with [] => false | _ => (cline_after first before =? cur)%Z end
                then "      " ++ offset ++ ": " ++ text
                else "L." ++ pad3 (dec cur) ++ " " ++ offset ++ ": " ++ text
              else offset ++ "    " ++ text)%string
  end.
Definition entry_text (e : exentry) : string :=
  (dec (e_start e) ++ " to " ++ dec (e_stop e) ++ " -> " ++ dec (e_target e) ++ " [" ++ dec (e_depth e) ++ "]"
   ++ (if e_lasti e then " lasti" else ""))%string.
