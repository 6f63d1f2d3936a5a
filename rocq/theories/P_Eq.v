(** Lemmas on the comparison of instruction lists. *)
From Verif Require Import PyBase OpTable M_Instr M_Tables M_Concrete M_Convert M_Bytecode S_Prog P_Base P_Conv2.
Open Scope string_scope.
Open Scope list_scope.
Open Scope Z_scope.

(** ** Python equality of arguments *)

Section Ind.
  Variable P : pyobj -> Prop.
  Hypothesis base : forall o, (forall l, o <> OTuple l) -> P o.
  Hypothesis tup : forall l, Forall P l -> P (OTuple l).
  Lemma pyobj_nested : forall o, P o.
  Proof.
    fix F 1. intros o. destruct o; try (apply base; discriminate).
    apply tup. revert l. fix G 1. intros [|x r]; constructor; [apply F|apply G].
  Qed.
End Ind.

(** ints, bools and enum members are one kind of value *)
Fixpoint norm (o : pyobj) : pyobj :=
  match o with
  | OTuple l => OTuple (map norm l)
  | OBool b => OInt (if b then 1 else 0)
  | OCompare z | OIntr1 z | OIntr2 z => OInt z
  | _ => o
  end.

Lemma py_eq_norm a : forall b, py_eq a b = true <-> norm a = norm b.
Proof.
  induction a as [a N|l IH] using pyobj_nested; intros b.
  - destruct a; try (exfalso; now apply (N l));
      destruct b; cbn; rewrite ?Z.eqb_eq, ?String.eqb_eq, ?Nat.eqb_eq, ?andb_true_iff, ?Nat.eqb_eq;
      try (split; congruence); try (split; intros; try congruence; discriminate).
    all: try (split; [intros [-> ->]; reflexivity|intros Q; injection Q as -> ->; auto]).
  - destruct b as [| | | |m| | | | | | | | |]; cbn; try (split; discriminate).
    assert (G : (fix go (l m : list pyobj) {struct l} : bool := match l, m with [], [] => true
        | x :: l', y :: m' => py_eq x y && go l' m' | _, _ => false end) l m = true <-> map norm l = map norm m).
    { revert m. induction l as [|x l IHl]; intros [|y m]; cbn; try (split; congruence).
      inversion IH as [|? ? Hx Hl]; subst. rewrite andb_true_iff, Hx, (IHl Hl).
      split; [intros [-> ->]; reflexivity|intros Q; injection Q as -> ->; auto]. }
    rewrite G. split; [now intros ->|intros Q; now injection Q].
Qed.

Lemma py_eq_refl a : py_eq a a = true. Proof. now apply py_eq_norm. Qed.

Lemma oz_eqb_eq a b : oz_eqb a b = true <-> a = b.
Proof. destruct a, b; cbn; rewrite ?Z.eqb_eq; split; congruence. Qed.
Lemma loc_eqb_eq a b : loc_eqb a b = true <-> a = b.
Proof.
  unfold loc_eqb. rewrite !andb_true_iff, !oz_eqb_eq. destruct a, b; cbn. split; [intuition congruence|].
  intros Q; injection Q; intuition congruence.
Qed.
Lemma oloc_eqb_eq a b : oloc_eqb a b = true <-> a = b.
Proof. destruct a, b; cbn; rewrite ?loc_eqb_eq; split; congruence. Qed.

Definition equivalence (keq : pyobj -> pyobj -> bool) : Prop :=
  (forall x, keq x x = true) /\ (forall x y, keq x y = true -> keq y x = true)
  /\ (forall x y z, keq x y = true -> keq y z = true -> keq x z = true).

Section Flat.
  Variables (v : pyver) (T : optable) (keq : pyobj -> pyobj -> bool).
  Hypothesis KE : equivalence keq.

  Lemma instr_eqb_refl i : instr_eqb T keq i i = true.
  Proof.
    unfold instr_eqb. rewrite (proj2 (oloc_eqb_eq _ _) eq_refl), String.eqb_refl.
    destruct (z_mem _ _); cbn; [apply (proj1 KE)|apply py_eq_refl].
  Qed.
  Lemma instr_eqb_sym i j : instr_eqb T keq i j = true -> instr_eqb T keq j i = true.
  Proof.
    unfold instr_eqb. rewrite !andb_true_iff, !oloc_eqb_eq, !String.eqb_eq. intros [[-> ->] H].
    repeat split. destruct (z_mem (i_op i) _), (z_mem (i_op j) _); cbn in *; try discriminate.
    - now apply (proj1 (proj2 KE)). - apply py_eq_norm. symmetry. now apply py_eq_norm.
  Qed.
  Lemma instr_eqb_trans i j k : instr_eqb T keq i j = true -> instr_eqb T keq j k = true -> instr_eqb T keq i k = true.
  Proof.
    unfold instr_eqb. rewrite !andb_true_iff, !oloc_eqb_eq, !String.eqb_eq. intros [[-> ->] H] [[-> ->] H'].
    repeat split. destruct (z_mem (i_op i) _), (z_mem (i_op j) _), (z_mem (i_op k) _); cbn in *; try discriminate.
    - eapply (proj2 (proj2 KE)); eassumption. - apply py_eq_norm in H, H'. apply py_eq_norm. congruence.
  Qed.
  Lemma cinstr_eqb_eq c d : cinstr_eqb c d = true <-> c_loc c = c_loc d /\ c_name c = c_name d /\ c_arg c = c_arg d.
  Proof. unfold cinstr_eqb. rewrite !andb_true_iff, oloc_eqb_eq, String.eqb_eq, oz_eqb_eq. tauto. Qed.

  Lemma flat_eqb_sym a b : flat_eqb T keq a b = true -> flat_eqb T keq b a = true.
  Proof.
    destruct a, b; cbn; try discriminate; rewrite ?andb_true_iff, ?Nat.eqb_eq, ?Z.eqb_eq, ?eqb_true_iff, ?cinstr_eqb_eq;
      try intuition congruence. apply instr_eqb_sym.
  Qed.
  Lemma flat_eqb_trans a b c : flat_eqb T keq a b = true -> flat_eqb T keq b c = true -> flat_eqb T keq a c = true.
  Proof.
    destruct a, b, c; cbn; try discriminate; rewrite ?andb_true_iff, ?Nat.eqb_eq, ?Z.eqb_eq, ?eqb_true_iff, ?cinstr_eqb_eq;
      try intuition congruence. apply instr_eqb_trans.
  Qed.

  Lemma list_eqb_F {A} (f : A -> A -> bool) l m : list_eqb f l m = true <-> Forall2 (fun x y => f x y = true) l m.
  Proof.
    revert m. induction l as [|x l IH]; intros [|y m]; cbn; split; intros H; try discriminate; try constructor;
      try (inversion H; fail).
    - apply andb_true_iff in H. tauto.
    - apply andb_true_iff in H. apply IH. tauto.
    - inversion H; subst. apply andb_true_iff. split; [assumption|now apply IH].
  Qed.

  (** ** What [flat] computes *)

  Definition counted (it : bitem) : bool := match it with BI _ | BSet _ => true | _ => false end.
  Fixpoint lastoff (l : list bitem) (n : nat) : option nat :=
    match l with
    | [] => None
    | it :: r => match lastoff r n with
                 | Some k => Some ((if counted it then 1 else 0) + k)%nat
                 | None => match it with BLabel m => if Nat.eqb n m then Some 0%nat else None | _ => None end
                 end
    end.

  (** element of the first list for an item *)
  Definition frel0 (it : bitem) (f : flat0) : Prop :=
    match it, f with
    | BLabel _, FLabel _ => True
    | BTB _ t la _, FTB0 _ n la' => t = OLabel n /\ la = la'
    | BTE _, FTE _ => True
    | BSet z, FSet z' => z = z'
    | BI i, FPlain j => i = j /\ forall n, i_arg i <> OLabel n
    | BI i, FJump0 n c => i_arg i = OLabel n /\ c_name c = i_name i /\ c_loc c = i_loc i
    | _, _ => False
    end.

  Lemma flat_loop_spec l : forall seen index offset tbs labels out labels',
    flat_loop v T seen index offset tbs labels l = Ok (out, labels') ->
    Forall2 frel0 l out
    /\ forall n, dget Nat.eqb labels' n = match lastoff l n with Some k => Some (offset + k)%nat | None => dget Nat.eqb labels n end.
  Proof.
    induction l as [|it l IH]; intros seen index offset tbs labels out labels' E.
    { injection E as <- <-. split; [constructor|reflexivity]. }
    cbn [flat_loop] in E. apply bind_ok in E. destruct E as (seen' & _ & E).
    destruct it as [i|n|z|id t la d|id].
    - apply bind_ok in E. destruct E as (f & F & E).
      apply bind_ok in E. destruct E as ([out' lb] & E1 & E). injection E as <- <-.
      destruct (IH _ _ _ _ _ _ _ E1) as (A & B). split.
      + constructor; [|exact A]. destruct (i_arg i) eqn:IA;
          try (injection F as <-; cbn; split; [reflexivity|congruence]).
        apply bind_ok in F. destruct F as (c & C & F). injection F as <-. cbn.
        unfold new_cinstr in C. apply bind_ok in C. destruct C as (op & _ & C).
        apply bind_ok in C. destruct C as (u & _ & C). injection C as <-. auto.
      + intros n. rewrite B. cbn. destruct (lastoff l n); [f_equal; lia|reflexivity].
    - apply bind_ok in E. destruct E as ([out' lb] & E1 & E). injection E as <- <-.
      destruct (IH _ _ _ _ _ _ _ E1) as (A & B). split; [now constructor|].
      intros m. rewrite B. cbn. destruct (lastoff l m); [reflexivity|].
      rewrite dget_dset. destruct (Nat.eqb m n); [f_equal; lia|reflexivity].
    - apply bind_ok in E. destruct E as ([out' lb] & E1 & E). injection E as <- <-.
      destruct (IH _ _ _ _ _ _ _ E1) as (A & B). split; [now constructor|].
      intros m. rewrite B. cbn. destruct (lastoff l m); [f_equal; lia|reflexivity].
    - apply bind_ok in E. destruct E as (k & _ & E). apply bind_ok in E. destruct E as (n & N & E).
      apply bind_ok in E. destruct E as ([out' lb] & E1 & E). injection E as <- <-.
      destruct (IH _ _ _ _ _ _ _ E1) as (A & B). split.
      + constructor; [|exact A]. destruct t; try discriminate. injection N as <-. now split.
      + intros m. rewrite B. cbn. now destruct (lastoff l m).
    - apply bind_ok in E. destruct E as (k & _ & E).
      apply bind_ok in E. destruct E as ([out' lb] & E1 & E). injection E as <- <-.
      destruct (IH _ _ _ _ _ _ _ E1) as (A & B). split; [now constructor|].
      intros m. rewrite B. cbn. now destruct (lastoff l m).
  Qed.

  (** element of the final list for an item of [L] *)
  Definition frel (L : list bitem) (it : bitem) (f : flat0) : Prop :=
    match it, f with
    | BLabel _, FLabel _ => True
    | BTB _ t la _, FTB _ k la' => exists n, t = OLabel n /\ lastoff L n = Some k /\ la = la'
    | BTE _, FTE _ => True
    | BSet z, FSet z' => z = z'
    | BI i, FPlain j => i = j /\ forall n, i_arg i <> OLabel n
    | BI i, FJump c => exists n k, i_arg i = OLabel n /\ lastoff L n = Some k /\ c_name c = i_name i
                         /\ c_loc c = i_loc i /\ c_arg c = Some (Z.of_nat k)
    | _, _ => False
    end.

  Lemma mapM_F {A B} (f : A -> res B) l m : mapM f l = Ok m -> Forall2 (fun x y => f x = Ok y) l m.
  Proof.
    revert m. induction l as [|x l IH]; cbn; intros m E.
    - injection E as <-. constructor.
    - apply bind_ok in E. destruct E as (y & Y & E). apply bind_ok in E. destruct E as (ys & YS & E).
      injection E as <-. constructor; auto.
  Qed.

  Lemma flat_spec l out : flat v T l = Ok out -> Forall2 (frel l) l out.
  Proof.
    unfold flat. intros E. apply bind_ok in E. destruct E as ([o1 labels] & E1 & E).
    apply bind_ok in E. destruct E as (o2 & E2 & E3). apply flat_loop_spec in E1. destruct E1 as [F L].
    cbn in L. apply mapM_F in E2, E3.
    assert (LL : forall n, dget Nat.eqb labels n = lastoff l n) by (intros n; rewrite L; now destruct (lastoff l n)).
    assert (G : forall l0, Forall2 frel0 l0 o1 -> Forall2 (frel l) l0 out).
    { clear F. clear L. revert o2 out E2 E3. induction o1 as [|f o1 IH]; intros o2 out E2 E3 l0 F.
      - inversion F; subst. inversion E2; subst. inversion E3; subst. constructor.
      - inversion F as [|it ? l1 ? R F']; subst. inversion E2 as [|? f2 ? o2' Q2 E2']; subst.
        inversion E3 as [|? f3 ? o3' Q3 E3']; subst. constructor; [|eapply IH; eassumption].
        destruct f; cbn in Q2; try (injection Q2 as <-; cbn in Q3; try (injection Q3 as <-)); destruct it; cbn in R |- *; try contradiction; try tauto; try exact R.
        + apply bind_ok in Q3. destruct Q3 as (t & Q3 & Q4). apply of_option_ok in Q3. injection Q4 as <-.
          destruct R as [-> ->]. exists label. now rewrite <- LL.
        + apply bind_ok in Q2. destruct Q2 as (k & Q & Q2). apply of_option_ok in Q.
          apply bind_ok in Q2. destruct Q2 as (c' & C & Q2). injection Q2 as <-. cbn in Q3. injection Q3 as <-.
          destruct R as (R1 & R2 & R3). exists label, k. rewrite <- LL.
          unfold set_arg in C. destruct (c_set v T c (c_name c) (OInt (Z.of_nat k))) as [c2 r] eqn:CS.
          destruct r; [|discriminate]. injection C as <-. unfold c_set in CS.
          destruct (resolve_name T (c_name c)); [|discriminate]. destruct (c_check_arg _ _ _ _); [|discriminate].
          injection CS as <-. cbn. auto. }
    now apply G.
  Qed.
End Flat.
