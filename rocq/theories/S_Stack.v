(** What the stack size of a graph has to be: a machine that only knows the depth of the
    stack walks through the graph. *)
From Verif Require Import PyBase OpTable M_Instr M_Concrete M_Bytecode M_Cfg S_Cfg.
Open Scope list_scope.
Open Scope Z_scope.

(** The open try block: identity of its TryBegin, handler, push_lasti *)
Definition open_try : Type := option (nat * nat * bool).

(** items the interpreter pushes when it enters a handler: the exception, and the place of
    the instruction if push_lasti *)
Definition pushed (lasti : bool) : Z := if lasti then 2 else 1.

(** items on the stack when the code starts: generators, coroutines and asynchronous
    generators of 3.10 to 3.12 start with one *)
Definition first_depth (v : pyver) (flags : Z) : Z :=
  if (10 <=? minor v) && (minor v <=? 12)
     && (Z.testbit flags 5 || Z.testbit flags 7 || Z.testbit flags 9) then 1 else 0.

(** a TryEnd of [id] closes the try block opened by [id], and no other *)
Definition close (id : nat) (o : open_try) : open_try :=
  match o with
  | Some (id', _, _) => if Nat.eqb id id' then None else o
  | None => None
  end.

(** the TryEnd among the elements after a final instruction: they end the try block too *)
Definition ends_after (rest : list bitem) : list nat :=
  flat_map (fun it => match it with BTE id => [id] | _ => [] end) rest.

(** block, number of the next element, items on the stack, open try block *)
Definition conf : Type := (nat * nat * Z * open_try)%type.

Section Machine.
  (** Effect of an instruction on the stack, when it jumps and when it does not: how the
      depth changes before it (items it takes) and after; [None]: unknown instruction. *)
  Variables (T : optable) (effect : instr -> bool -> option (Z * Z)).
  (** [H h]: the depth to which the stack is unwound before handler [h] starts *)
  Variables (g : cfg) (first : Z) (H : nat -> Z).
  (** [cov b i h la]: whatever way control came to element [i] of block [b], an exception
      raised there goes to handler [h] (the ranges of an exception table); the theorems are
      about every such relation. *)
  Variable cov : nat -> nat -> nat -> bool -> Prop.

  Definition elem (b i : nat) : option bitem := nth_error (k_items (blk g b)) i.
  Definition after (b i : nat) : list nat := ends_after (skipn (S i) (k_items (blk g b))).

  Inductive step : conf -> conf -> Prop :=
  | st_line b i d o z : elem b i = Some (BSet z) -> step (b, i, d, o) (b, S i, d, o)
  | st_begin b i d o id h la sd : elem b i = Some (BTB id (OBlock h) la sd) ->
      step (b, i, d, o) (b, S i, d, Some (id, h, la))
  | st_end b i d o id : elem b i = Some (BTE id) -> step (b, i, d, o) (b, S i, d, close id o)
  | st_instr b i d o x pre post : elem b i = Some (BI x) -> is_final x = false ->
      effect x false = Some (pre, post) -> step (b, i, d, o) (b, S i, d + pre + post, o)
  | st_jump b i d o x n pre post : elem b i = Some (BI x) -> has_jump T x = true ->
      i_arg x = OBlock n -> effect x true = Some (pre, post) ->
      step (b, i, d, o)
        (n, O, d + pre + post, if is_final x && negb (Nat.eqb (length (after b i)) 0) then None else o)
  | st_next b i d o m : elem b i = None -> k_next (blk g b) = Some m -> step (b, i, d, o) (m, O, d, o).

  Inductive steps (c : conf) : conf -> Prop :=
  | ss_refl : steps c c
  | ss_step c1 c2 : steps c c1 -> step c1 c2 -> steps c c2.

  (** an exception may go from there to handler [h]: there is one wherever a try block is
      open, and where [cov] says so *)
  Definition may_raise (c : conf) (h : nat) (la : bool) : Prop :=
    let '(b, i, d, o) := c in (exists id, o = Some (id, h, la)) \/ cov b i h la.

  (** control can be there *)
  Inductive at_ : conf -> Prop :=
  | at_entry n l : g_order g = n :: l -> at_ (n, O, first, None)
  | at_step c c' : at_ c -> step c c' -> at_ c'
  | at_raise c h la : at_ c -> may_raise c h la -> at_ (h, O, H h + pushed la, None).

  (** Some instruction takes more items than there are. *)
  Definition underflow : Prop :=
    exists b i d o x j pre post,
      at_ (b, i, d, o) /\ elem b i = Some (BI x)
      /\ (j = true -> has_jump T x = true)
      /\ (j = false -> has_jump T x = false \/ is_uncond_jump_name (i_name x) = false)
      /\ effect x j = Some (pre, post) /\ d + pre < 0.

  (** a TryEnd of [id] stands here, or after the final instruction that stands here *)
  Definition ends (b i : nat) (id : nat) : Prop :=
    elem b i = Some (BTE id)
    \/ exists x, elem b i = Some (BI x) /\ is_final x = true /\ hd_error (after b i) = Some id.

  Definition block_of (c : conf) : nat := fst (fst (fst c)).
  Definition index_of (c : conf) : nat := snd (fst (fst c)).

  (** steps that stay in the block *)
  Inductive line (c : conf) : conf -> Prop :=
  | ln_refl : line c c
  | ln_step c1 c2 : line c c1 -> step c1 c2 -> index_of c2 <> O -> line c c2.

  (** control can be there on a way that enters no block twice (the blocks entered so far are
      listed, the last first) *)
  Inductive way : list nat -> conf -> Prop :=
  | way_entry n l : g_order g = n :: l -> way [n] (n, O, first, None)
  | way_in l c c' : way l c -> step c c' -> index_of c' <> O -> way l c'
  | way_go l c c' : way l c -> step c c' -> index_of c' = O -> ~ In (block_of c') l -> way (block_of c' :: l) c'
  | way_raise l b i d id h la : way l (b, i, d, Some (id, h, la)) -> ~ In h l ->
      way (h :: l) (h, O, H h + pushed la, None).

  (** control can be there without ever having been at element [i0] of block [b0] *)
  Inductive avoiding (b0 i0 : nat) : conf -> Prop :=
  | av_entry n l : g_order g = n :: l -> (n, O) <> (b0, i0) -> avoiding b0 i0 (n, O, first, None)
  | av_step c c' : avoiding b0 i0 c -> step c c' -> (block_of c', index_of c') <> (b0, i0) -> avoiding b0 i0 c'
  | av_raise b i d id h la : avoiding b0 i0 (b, i, d, Some (id, h, la)) -> (h, O) <> (b0, i0) ->
      avoiding b0 i0 (h, O, H h + pushed la, None).
  Definition only_through (b0 i0 n : nat) : Prop := forall d o, ~ avoiding b0 i0 (n, O, d, o).

  (** steps inside the try block [tb], entering only blocks that are not reached but through
      element [i0] of block [b0] *)
  Inductive within (b0 i0 : nat) (tb : nat * nat * bool) (c : conf) : conf -> Prop :=
  | wi_refl : within b0 i0 tb c c
  | wi_step c1 c2 : within b0 i0 tb c c1 -> step c1 c2 -> snd c2 = Some tb ->
      (index_of c2 = O -> only_through b0 i0 (block_of c2)) -> within b0 i0 tb c c2.

  (** A TryBegin that shows the depth of its handler: the stack falls to that depth before
      control leaves the block, and from there a TryEnd of it is reached through blocks that
      are not entered from elsewhere. *)
  Definition showing (b i : nat) (d : Z) (id h : nat) (la : bool) : Prop :=
    exists i1, line (b, S i, d, Some (id, h, la)) (b, i1, H h, Some (id, h, la))
      /\ exists b' i' d', within b i1 (id, h, la) (b, i1, H h, Some (id, h, la)) (b', i', d', Some (id, h, la))
           /\ ends b' i' id.

  (** control can be there, handlers being entered because of such a TryBegin *)
  Inductive shown : conf -> Prop :=
  | sh_entry n l : g_order g = n :: l -> shown (n, O, first, None)
  | sh_step c c' : shown c -> step c c' -> shown c'
  | sh_raise b i d o id h la sd : shown (b, i, d, o) -> elem b i = Some (BTB id (OBlock h) la sd) ->
      showing b i d id h la -> shown (h, O, H h + pushed la, None).

  (** Graphs for which the computation is right. *)
  Record regular : Prop := {
    (** a block is always entered with the same depth *)
    reg_same : forall b d d' o o', at_ (b, O, d, o) -> at_ (b, O, d', o') -> d = d';
    reg_depth : forall h, 0 <= H h < 32768;
    (** where a handler is in charge the stack is at least as deep as its depth: *)
    reg_cov : forall b i d o h la, at_ (b, i, d, o) -> cov b i h la -> H h <= d;
    reg_inside : forall l b i d id h la, way l (b, i, d, Some (id, h, la)) -> H h <= d;
    (** a TryEnd after a final instruction that does not jump is that of the open try block,
        and this instruction, too, leaves the items that were there before *)
    reg_final : forall l b i d o x id, way l (b, i, d, o) -> elem b i = Some (BI x) -> is_final x = true ->
      has_jump T x = false \/ is_uncond_jump_name (i_name x) = false -> hd_error (after b i) = Some id ->
      exists h la, o = Some (id, h, la) /\ forall pre post, effect x false = Some (pre, post) -> H h <= d + pre + post;
    (** a TryEnd after a jump does not end another try block than the one that is open *)
    reg_jump : forall l b i d id h la x id', way l (b, i, d, Some (id, h, la)) -> elem b i = Some (BI x) ->
      is_final x = true -> hd_error (after b i) = Some id' -> id' = id;
    (** try blocks are not nested *)
    reg_begin : forall l b i d o id t la sd, way l (b, i, d, o) -> elem b i = Some (BTB id t la sd) -> o = None;
    (** every handler has a TryBegin that shows its depth *)
    reg_shown : forall c h la, at_ c -> may_raise c h la -> exists b i d o id sd,
      shown (b, i, d, o) /\ elem b i = Some (BTB id (OBlock h) la sd) /\ showing b i d id h la;
    (** an empty block to which a block falls through is the last one *)
    reg_next : forall b i d o m, at_ (b, i, d, o) -> elem b i = None -> k_next (blk g b) = Some m ->
      k_items (blk g m) = [] -> k_next (blk g m) = None }.
End Machine.

(** A TryBegin is one object: wherever it stands, it has the same target and push_lasti. *)
Definition coherent (g : cfg) : Prop :=
  forall n m id t t' la la' d d', In (BTB id t la d) (k_items (blk g n)) ->
    In (BTB id t' la' d') (k_items (blk g m)) -> t = t' /\ la = la'.

(** There is a TryBegin only from 3.11 on: before, try blocks are not marked in the code. *)
Definition try_known (v : pyver) (g : cfg) : Prop :=
  PY311 v = true \/ forall b i id t la sd, elem g b i <> Some (BTB id t la sd).

(** Every target is a block of the graph, blocks can be iterated over, the effects of the
    instructions are known, TryEnd belong to TryBegin of the graph. *)
Record complete (T : optable) (effect : instr -> bool -> option (Z * Z)) (g : cfg) : Prop := {
  com_iter : forall n, In n (g_order g) -> block_iter T (k_items (blk g n)) = Ok tt;
  com_refs : forall n m, In n (g_order g) -> refers g n m \/ falls g n m -> In m (g_order g);
  com_effects : forall n x j, In n (g_order g) -> In (BI x) (k_items (blk g n)) -> effect x j <> None;
  com_ends : forall n id, In n (g_order g) -> In (BTE id) (k_items (blk g n)) ->
    exists n' t la d, In n' (g_order g) /\ In (BTB id t la d) (k_items (blk g n')) }.

(** Nothing but the stack depths of TryBegin differs. *)
Definition no_depth (it : bitem) : bitem := match it with BTB id t la _ => BTB id t la None | _ => it end.
Definition same_but_depths (g g' : cfg) : Prop :=
  g_meta g' = g_meta g /\ g_argnames g' = g_argnames g /\ g_order g' = g_order g /\ g_index g' = g_index g
  /\ forall n, k_next (blk g' n) = k_next (blk g n)
               /\ map no_depth (k_items (blk g' n)) = map no_depth (k_items (blk g n)).
