(** More nesting allowed does not change the stack size computation. *)
From Verif Require Import PyBase OpTable P_Base M_Instr M_Concrete M_Bytecode M_Cfg M_Stack.
Open Scope list_scope.
Open Scope Z_scope.

(** [b] is [a] unless [a] ran out of fuel *)
Definition ext {A} (a b : res A) : Prop := a <> Err Nontermination -> b = a.
Definition ext_call (c c' : visit) : Prop := forall b s mx mn e p C, ext (c b s mx mn e p C) (c' b s mx mn e p C).

Lemma ext_refl {A} (a : res A) : ext a a.
Proof. intros _. reflexivity. Qed.
Lemma ext_bind {A B} (a a' : res A) (f f' : A -> res B) :
  ext a a' -> (forall x, ext (f x) (f' x)) -> ext (bind a f) (bind a' f').
Proof.
  intros E F NE. destruct a as [x|e].
  - rewrite (E ltac:(discriminate)). cbn [bind] in *. now apply F.
  - cbn [bind] in NE. rewrite E; [reflexivity|congruence].
Qed.

Section X.
  Variables (v : pyver) (T : optable) (se : oracle) (check : bool) (g : cfg) (c c' : visit).
  Hypothesis EC : ext_call c c'.

  Lemma ext_handler t la mx mn C : ext (compute_handler c t la mx mn C) (compute_handler c' t la mx mn C).
  Proof.
    destruct t; cbn [compute_handler]; try apply ext_refl. apply ext_bind; [apply ext_refl|]. intros s.
    destruct (mn <? s); [|apply ext_refl]. apply ext_bind; [apply EC|]. intros [r C1]. apply ext_refl.
  Qed.

  Lemma ext_loop b rest : forall s mx mn cur C,
    ext (block_loop v T se check g c b rest s mx mn cur C) (block_loop v T se check g c' b rest s mx mn cur C).
  Proof.
    induction rest as [|it r IH]; intros s mx mn cur C; cbn [block_loop].
    - apply ext_bind; [|intros [m1 C1]; apply ext_refl].
      destruct (k_next (blk g b)) as [m|]; [|apply ext_refl]. destruct (k_items (blk g m)); [apply ext_refl|apply EC].
    - apply ext_bind; [apply ext_refl|]. intros []. destruct it as [i|n|z|id t la sd|id].
      + apply ext_bind.
        * destruct (has_jump T i); [|apply ext_refl]. apply ext_bind; [apply ext_refl|]. intros e.
          apply ext_bind; [apply ext_refl|]. intros [[tk m1] m2]. apply ext_bind; [apply ext_refl|]. intros tg.
          apply ext_bind; [apply EC|]. intros [mx2 C2]. destruct (is_uncond_jump_name (i_name i)); [|apply ext_refl].
          apply ext_bind; [|intros C3; apply ext_refl].
          destruct (trailing_end r) as [id|]; [|apply ext_refl]. destruct cur as [[[id' t] la]|]; [|apply ext_refl].
          destruct (Nat.eqb id id'); [apply ext_handler|apply ext_refl].
        * intros [[m1 C1] st]. destruct st; [apply ext_refl|]. apply ext_bind; [apply ext_refl|]. intros e.
          apply ext_bind; [apply ext_refl|]. intros [[s1 m2] m3]. destruct (is_final i); [|apply IH].
          apply ext_bind; [|intros C3; apply ext_refl]. destruct (trailing_end r) as [id|]; [|apply ext_refl].
          apply ext_bind; [apply ext_refl|]. intros [[t la] d]. apply ext_handler.
      + apply IH.
      + apply IH.
      + destruct cur; [apply ext_refl|apply IH].
      + destruct cur as [[[id' t] la]|]; [|apply IH]. destruct (Nat.eqb id id'); [|apply IH].
        apply ext_bind; [apply ext_handler|]. intros C1. apply IH.
  Qed.
End X.

Lemma run_ext v T se check g f : ext_call (run v T se check g f) (run v T se check g (S f)).
Proof.
  induction f as [|f IH]; intros b s mx mn e p C.
  - intros NE. now destruct NE.
  - cbn [run]. destruct (nat_mem b (c_seen C)); [apply ext_refl|]. apply ext_bind; [apply ext_refl|]. intros sizes.
    destruct (negb (relevant v sizes (s, e))); [apply ext_refl|]. apply ext_bind; [apply ext_refl|]. intros [[s1 m1] m2].
    apply ext_loop. exact IH.
Qed.

Lemma run_more v T se check g f k : ext_call (run v T se check g f) (run v T se check g (f + k)).
Proof.
  induction k as [|k IH]; intros b s mx mn e p C; [rewrite Nat.add_0_r; apply ext_refl|].
  rewrite Nat.add_succ_r. intros NE. rewrite run_ext.
  - now apply IH.
  - rewrite IH; auto.
Qed.

Lemma compute_more v T se check depths g f k : (f = visit_fuel g)%nat ->
  compute_nested f v T se check depths g <> Err Nontermination ->
  compute_nested (f + k) v T se check depths g = compute_nested f v T se check depths g.
Proof.
  intros _. unfold compute_nested. destruct (g_order g) as [|n l]; [reflexivity|].
  intros NE. refine (ext_bind _ _ _ _ _ _ NE); [apply run_more|]. intros [r C]. apply ext_refl.
Qed.
