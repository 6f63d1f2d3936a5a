(** Which objects share their lists of names and constants, and what a change of such a list
  changes (C79).  [made], [same_list], [shared_by_copies]: S_Alias.v. *)
From Verif Require Import PyBase M_Alias S_Alias P_Alias.
Open Scope string_scope.
Open Scope list_scope.
Open Scope nat_scope.

(** Two attributes are one list only if they are the same attribute of a Bytecode or
    ConcreteBytecode and of a copy of it: argnames, or consts, names, varnames. *)
Theorem C79_shared {A} (st : state A) family i a j b : made st family -> same_list st i a j b -> (i, a) <> (j, b) ->
  a = b /\ nth_error family i = nth_error family j
  /\ exists x y, nth_error (s_objs st) i = Some x /\ nth_error (s_objs st) j = Some y /\ o_cls x = o_cls y
     /\ shared_by_copies (o_cls x) a = true.
Proof.
  intros M (x & y & Hi & Hj & Ha & Hb & E) N. destruct (made_inv st family M) as (_ & _ & SH).
  destruct (SH i x a j y b Hi Hj Ha Hb E) as [-> [->|(F & C & S1)]]; [congruence|]. repeat split; try assumption. exists x, y. auto.
Qed.

(** A list changed in place is changed for that object, and for nothing but copies. *)
Theorem C79_change {A} (st : state A) family i a f st' : made st family -> edit st i a f = Some st' ->
  read st' i a = option_map f (read st i a)
  /\ forall j b, (j, b) <> (i, a) ->
     b <> a \/ nth_error family j <> nth_error family i
       \/ (forall x, nth_error (s_objs st) i = Some x -> shared_by_copies (o_cls x) a = false) ->
     read st' j b = read st j b.
Proof.
  intros M E. destruct (edit_read st family i a f st' (made_inv _ _ M) E) as [R1 R2]. split; [exact R1|].
  intros j b N C. apply R2. intros SL. destruct (C79_shared st family i a j b M SL ltac:(congruence)) as (-> & F & x & y & Hx & _ & _ & S1).
  destruct C as [C|[C|C]]; [congruence|congruence|]. specialize (C x Hx). congruence.
Qed.
(** A graph shares nothing: changing its argnames, cellvars or freevars changes no other object, and
    changing any other object does not change it. *)
Theorem C79_graphs_own {A} (st : state A) family i x a f st' : made st family -> nth_error (s_objs st) i = Some x -> o_cls x = CGraph ->
  (edit st i a f = Some st' -> forall j b, (j, b) <> (i, a) -> read st' j b = read st j b)
  /\ (forall j b, j <> i -> edit st j b f = Some st' -> read st' i a = read st i a).
Proof.
  intros M Hx C. split.
  - intros E j b N. apply (proj2 (C79_change st family i a f st' M E)); [exact N|]. right. right. intros x' Hx'.
    rewrite Hx in Hx'. injection Hx' as <-. now rewrite C.
  - intros j b N E. apply (proj2 (edit_read st family j b f st' (made_inv _ _ M) E)). intros SL.
    destruct (C79_shared st family j b i a M SL ltac:(congruence)) as (_ & _ & y & x' & _ & Hx' & C' & S1).
    rewrite Hx in Hx'. injection Hx' as <-. rewrite C', C in S1. discriminate.
Qed.

(** A copy or slice shows the same lists, and shares exactly those of [shared_by_copies]; *)
Theorem C79_copy {A} (st : state A) family i st' a : made st family -> copy st i = Some st' ->
  let n := length (s_objs st) in
  read st' n a = read st i a
  /\ (same_list st' i a n a <-> exists x, nth_error (s_objs st) i = Some x /\ shared_by_copies (o_cls x) a = true).
Proof. intros M. eapply copy_read, made_inv, M. Qed.
(** so what is done to the argnames of a copy is done to those of the original. *)
Theorem C79_copies_share {A} (st : state A) family i st' f st'' : made st family -> copy st i = Some st' ->
  edit st' (length (s_objs st)) Argnames f = Some st'' ->
  read st'' i Argnames = option_map f (read st i Argnames).
Proof.
  intros M E ED. pose proof (made_inv st family M) as I.
  destruct (copy_read st family i st' Argnames I E) as [R SL].
  assert (Hm : exists m, nth_error family i = Some m).
  { destruct I as [L _]. assert (Q : i < length (s_objs st)). { unfold copy in E. destruct (nth_error (s_objs st) i) eqn:Q; [|discriminate]. apply nth_error_Some. congruence. }
    destruct (nth_error family i) eqn:Q'; [eauto|]. apply nth_error_None in Q'. exfalso. rewrite L in Q'. exact (Nat.lt_irrefl _ (Nat.lt_le_trans _ _ _ Q Q')). }
  destruct Hm as (m & Hm). pose proof (made_inv _ _ (m_copy st family i st' m M E Hm)) as I'.
  destruct (edit_read st' _ _ _ f st'' I' ED) as [R1 _]. rewrite R in R1. rewrite <- R1.
  assert (SH : same_list st' i Argnames (length (s_objs st)) Argnames).
  { apply SL. unfold copy in E. destruct (nth_error (s_objs st) i) as [y|] eqn:Hi; [|discriminate]. exists y. split; [reflexivity|].
    destruct (o_cls y) eqn:C; try discriminate; [reflexivity|]. exfalso. unfold edit in ED. injection E as <-.
    unfold add_obj, init, copy_attr_from, alloc in ED. cbn [fst snd set_slot o_cls s_objs] in ED.
    rewrite C, nth_error_app2, Nat.sub_diag in ED by apply Nat.le_refl. cbn in ED. discriminate. }
  destruct SH as (x & y & Hx & Hy & H1 & H2 & EQ). unfold edit in ED. rewrite Hy, H2 in ED. injection ED as <-.
  unfold read. cbn [s_objs s_lists]. rewrite Hx, Hy, H1, H2, EQ. reflexivity.
Qed.

(** The constructors and conversions leave all other objects alone, share nothing with them, *)
Theorem C79_new_object {A} (st : state A) family st' : made st family -> creates st st' ->
  let n := length (s_objs st) in
  length (s_objs st') = S n
  /\ (forall j b, j < n -> read st' j b = read st j b)
  /\ (forall j a b, j < n -> ~ same_list st' n a j b).
Proof.
  intros M C n. pose proof (made_inv st family M) as I. pose proof (creates_pushed st family st' (length family) C) as P.
  destruct (pushed_objs _ _ _ _ P) as (x & EO). split; [rewrite EO, app_length; cbn; now rewrite Nat.add_1_r|]. split.
  - intros j b J. eapply pushed_read; eassumption.
  - intros j a b J SL. destruct (C79_shared st' _ n a j b (m_new st family st' M C) SL) as (_ & F & _); [intros E; injection E; intros; subst; exact (Nat.lt_irrefl _ J)|].
    destruct I as [L _]. rewrite nth_error_app2 in F by (rewrite L; apply Nat.le_refl). unfold n in F. rewrite L, Nat.sub_diag in F. cbn in F.
    rewrite nth_error_app1 in F by (now rewrite L). symmetry in F. apply nth_error_In in F. revert F. rewrite <- L. apply (fresh_family st family M).
Qed.
(** and show what they were given: *)
Theorem C79_construct {A} (st : state A) c k n v a :
  read (construct st c k n v) (length (s_objs st)) a
  = if has c a then Some (match a with Consts => k | Names => n | Varnames => v | _ => [] end) else None.
Proof. apply construct_read. Qed.
Theorem C79_from_code {A} (st : state A) names consts varnames freevars cellvars a :
  read (from_code st names consts varnames freevars cellvars) (length (s_objs st)) a
  = match a with Consts => Some consts | Names => Some names | Varnames => Some varnames
    | Freevars => Some freevars | Cellvars => Some cellvars | Argnames => None end.
Proof. apply from_code_read. Qed.
(** The conversions hand on the names. *)
Theorem C79_graph_of {A} (st : state A) family i st' a : made st family -> graph_of_bytecode st i = Some st' ->
  read st' (length (s_objs st)) a = read st i a.
Proof. intros M. eapply graph_of_read, made_inv, M. Qed.
Theorem C79_bytecode_of_graph {A} (st : state A) family i st' a : made st family -> bytecode_of_graph st i = Some st' ->
  read st' (length (s_objs st)) a = read st i a.
Proof. intros M. eapply of_graph_read, made_inv, M. Qed.
Theorem C79_bytecode_of_concrete {A} (st : state A) family i nargs st' : made st family -> bytecode_of_concrete st i nargs = Some st' ->
  let n := length (s_objs st) in
  read st' n Cellvars = read st i Cellvars /\ read st' n Freevars = read st i Freevars
  /\ read st' n Argnames = option_map (firstn nargs) (read st i Varnames).
Proof. intros M. eapply of_concrete_read, made_inv, M. Qed.
Theorem C79_concrete_of_bytecode {A} (st : state A) family i k n m st' : made st family -> concrete_of_bytecode st i k n m = Some st' ->
  let x := length (s_objs st) in
  read st' x Cellvars = read st i Cellvars /\ read st' x Freevars = read st i Freevars
  /\ read st' x Consts = Some k /\ read st' x Names = Some n
  /\ read st' x Varnames = option_map (fun l => l ++ m) (read st i Argnames).
Proof. intros M. eapply to_concrete_read, made_inv, M. Qed.

(** Assigning a new list to an attribute changes that attribute of that object only, copies included. *)
Theorem C79_assign {A} (st : state A) family i a l st' : made st family -> assign st i a l = Some st' ->
  read st' i a = Some l /\ forall j b, (j, b) <> (i, a) -> read st' j b = read st j b.
Proof. intros M. eapply assign_read, made_inv, M. Qed.

(** ** Example: a Bytecode (0) with one argument name, its copy (1), its graph (2), the concrete code made of the copy (3) *)
Definition ok {A} (o : option (state A)) : state A := match o with Some s => s | None => mkSt [] [] end.
Definition st1 : state string := construct (mkSt [] []) CBytecode [] [] [].
Definition st2 : state string := ok (edit st1 0 Argnames (fun l => l ++ ["x"])).
Definition st3 : state string := ok (copy st2 0).
Definition st4 : state string := ok (graph_of_bytecode st3 0).
Definition st5 : state string := ok (concrete_of_bytecode st4 1 [] ["n"] ["y"]).
Definition st6 : state string := ok (edit st5 1 Argnames (fun l => l ++ ["z"])).
Example C79_ex : made st5 [0; 0; 2; 3]
  /\ edit st5 1 Argnames (fun l => l ++ ["z"]) = Some st6
  /\ map (fun i => read st6 i Argnames) [0; 1; 2; 3] = [Some ["x"; "z"]; Some ["x"; "z"]; Some ["x"]; None]
  /\ read st6 3 Varnames = Some ["x"; "y"]
  /\ same_list st5 0 Argnames 1 Argnames /\ ~ same_list st5 0 Cellvars 1 Cellvars /\ ~ same_list st5 0 Argnames 2 Argnames.
Proof.
  assert (M1 : made st1 [0]) by (apply (m_new (mkSt [] []) []); [apply m_none|apply c_construct]).
  assert (M2 : made st2 [0]) by (eapply (m_edit st1 [0] 0 Argnames); [exact M1|reflexivity]).
  assert (M3 : made st3 [0; 0]) by (eapply (m_copy st2 [0] 0 st3 0); [exact M2|reflexivity|reflexivity]).
  assert (M4 : made st4 [0; 0; 2]) by (eapply (m_new st3 [0; 0]); [exact M3|apply (c_graph_of st3 0); reflexivity]).
  assert (M5 : made st5 [0; 0; 2; 3]) by (eapply (m_new st4 [0; 0; 2]); [exact M4|apply (c_to_concrete st4 1 [] ["n"] ["y"]); reflexivity]).
  split; [exact M5|]. split; [reflexivity|]. split; [reflexivity|]. split; [reflexivity|].
  split; [eexists _, _; repeat split|].
  split; intros (x & y & E1 & E2 & _ & _ & E); cbn in E1, E2; injection E1 as <-; injection E2 as <-; cbn in E; discriminate.
Qed.

Print Assumptions C79_shared.
Print Assumptions C79_change.
Print Assumptions C79_graphs_own.
Print Assumptions C79_copy.
Print Assumptions C79_copies_share.
Print Assumptions C79_new_object.
Print Assumptions C79_construct.
Print Assumptions C79_from_code.
Print Assumptions C79_graph_of.
Print Assumptions C79_bytecode_of_graph.
Print Assumptions C79_bytecode_of_concrete.
Print Assumptions C79_concrete_of_bytecode.
Print Assumptions C79_assign.
