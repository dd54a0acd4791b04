(** C47: the C# bindings show the engine faithfully. *)
From Verif Require Import CSharpOwned.
Import Coq.Strings.String.StringSyntax.
Open Scope string_scope.
Open Scope list_scope.
Open Scope nat_scope.

(** ** Exceptions *)
(** A call that throws has no effect at all, and each exception has one meaning. *)
Theorem C47_exceptions_have_no_effect w o e w' : cs_step w o = Throw e w' -> w' = w.
Proof. apply throw_same. Qed.
Print Assumptions C47_exceptions_have_no_effect.

Definition reason (w : world) (o : op) (e : exn) : Prop :=
  match e with
  | InvalidOperation => exists i, In i (needs o) /\ gone w i
  | ArgumentNull => exists b h, o = GetContractData b h /\ gone w h
  | Mutability => exists i, In i (edits o) /\ shared w i
  | Ownership => (exists i, In i (populates o) /\ shared w i) \/ (exists i, In i (takes o) /\ not_owned w i)
  | IndexOutOfRange => o = NewBox (VString "")
  end.
Ltac split_args E :=
  repeat match type of E with
  | context [match nth_error (ww ?w) ?i with _ => _ end] =>
      let x := fresh "x" in let N := fresh "N" in
      destruct (nth_error (ww w) i) as [x|] eqn:N; [destruct x|discriminate E]; cbn [wr_kind wr_inner wr_own] in E
  | context [if wkind_eqb ?a ?b then _ else _] =>
      let K := fresh "K" in destruct (wkind_eqb a b) eqn:K; [|discriminate E]
  | context [if is_shared ?o then _ else _] => let S := fresh "S" in destruct (is_shared o) eqn:S
  | context [if negb (?b) then Illtyped else _] => destruct b; cbn [negb] in E; [|discriminate E]
  | context [if ?b then _ else Illtyped] => destruct b; [|discriminate E]
  | context [if negb (?b) then Throw _ _ else _] => let S := fresh "S" in destruct b eqn:S; cbn [negb] in E
  | context [match ?p with Some _ => _ | None => Throw _ _ end] => destruct p
  end.
Lemma shared_known w i k p o : nth_error (ww w) i = Some (mkWr k p o) -> is_shared o = true -> shared w i.
Proof. destruct o; try discriminate. unfold shared. eauto. Qed.
Lemma unowned_known w i k p o : nth_error (ww w) i = Some (mkWr k p o) -> is_owned o = false -> not_owned w i.
Proof. intros E Q. exists k, p, o. split; [exact E|]. destruct o; discriminate. Qed.
Ltac goneby N := eexists; split; [|do 2 eexists; exact N]; cbn [needs In]; tauto.

Lemma exceptions_mean w o e w' : reachable w -> cs_step w o = Throw e w' -> reason w o e.
Proof.
  intros R E. pose proof (reachable_winv _ R) as W. destruct o; cbn [cs_step] in E; unfold use, typed, inner in E;
    try (exfalso; eapply wrap_throw; exact E).
  all: split_args E.
  all: try (exfalso; first [eapply wrap_throw; exact E | eapply plain_throw; exact E]).
  all: try (injection E as <- <-; cbn [reason];
            first [ match goal with N : nth_error (ww _) ?i = Some {| wr_kind := _; wr_inner := None; wr_own := _ |} |- exists j, In j (needs _) /\ _ => goneby N end
                  | do 2 eexists; split; [reflexivity|do 2 eexists; eassumption] ]; fail).
  - (* NewBox *) destruct v as [| | | | | | | | | | |s| |]; try (exfalso; eapply wrap_throw; exact E); try discriminate E.
    destruct s; [injection E as <- <-; reflexivity|]. exfalso; eapply wrap_throw; exact E.
  - (* BoxValue *) exfalso. destruct wr_kind; try discriminate E. destruct (has_value t); [|discriminate E]. eapply plain_throw; exact E.
  - destruct wr_kind; try discriminate E. destruct (has_value t); [|discriminate E]. injection E as <- <-. cbn [reason]. goneby N.
  - (* GetStateMut, shared *) injection E as <- <-. cbn [reason]. exists b. split; [cbn; tauto|]. eapply shared_known; eauto.
  - (* Register, shared *) injection E as <- <-. cbn [reason]. exists b. split; [cbn; tauto|]. eapply shared_known; eauto.
  - (* ObjectCreate *) injection E as <- <-. cbn [reason]. left. exists b. split; [cbn; tauto|]. eapply shared_known; eauto.
  - injection E as <- <-. cbn [reason]. right. exists str_0. split; [cbn; tauto|]. eapply unowned_known; eauto.
  - (* ObjectRemove *) injection E as <- <-. cbn [reason]. left. exists b. split; [cbn; tauto|]. eapply shared_known; eauto.
  - (* Dispose *) exfalso. destruct wr_own; try discriminate E. destruct wr_inner; try discriminate E.
    destruct (wi_own _ W _ _ _ N) as (a & c & -> & _ & K). destruct wr_kind; try (eapply plain_throw; exact E); destruct c; discriminate K.
  - (* BorrowBaseline *) discriminate E.
  - injection E as <- <-. left. exists b. split; [cbn; tauto|]. eapply shared_known; eauto.
  - injection E as <- <-. right.
    destruct (is_owned wr_own1) eqn:O1; [|exists str_0; split; [cbn; tauto|eapply unowned_known; eauto]].
    destruct (is_owned wr_own2) eqn:O2; [|exists oh_0; split; [cbn; tauto|eapply unowned_known; eauto]].
    destruct (is_owned wr_own3) eqn:O3; [discriminate|]. exists ch_0; split; [cbn; tauto|eapply unowned_known; eauto].
Qed.

Lemma exceptions_when w o : cs_step w o <> Illtyped ->
  (exists i, In i (needs o) /\ gone w i) \/ (exists i, In i (edits o ++ populates o) /\ shared w i) \/ (exists i, In i (takes o) /\ not_owned w i) ->
  exists e, cs_step w o = Throw e w.
Proof.
  intros T C.
  assert (G : forall i x, gone w i -> nth_error (ww w) i = Some x -> wr_inner x = None) by (intros i x (k & ow & N) N'; rewrite N in N'; injection N' as <-; reflexivity).
  assert (Sh : forall i x, shared w i -> nth_error (ww w) i = Some x -> is_shared (wr_own x) = true) by (intros i x (k & ow & N) N'; rewrite N in N'; injection N' as <-; reflexivity).
  assert (No : forall i x, not_owned w i -> nth_error (ww w) i = Some x -> is_owned (wr_own x) = false).
  { intros i x (k & p & ow & N & Q) N'. rewrite N in N'. injection N' as <-. destruct ow; [congruence|reflexivity..]. }
  destruct o; cbn [needs edits populates takes In app] in C; cbn [cs_step] in T |- *; unfold use, typed, inner in *;
  repeat match goal with
  | |- context [match nth_error (ww w) ?i with _ => _ end] => let x := fresh "x" in let N := fresh "N" in destruct (nth_error (ww w) i) as [x|] eqn:N; [|congruence]
  | |- context [if wkind_eqb ?a ?b then _ else _] => destruct (wkind_eqb a b); [|congruence]
  | |- context [if negb ?b then Illtyped else _] => destruct b; cbn [negb] in T |- *; [|congruence]
  end;
  repeat match goal with
  | H : _ \/ _ |- _ => destruct H
  | H : exists _, _ |- _ => destruct H
  | H : _ /\ _ |- _ => destruct H
  | H : False |- _ => contradiction
  end; subst;
  repeat match goal with
  | H : gone w ?i, N : nth_error (ww w) ?i = Some ?x |- _ => rewrite (G _ _ H N) in *; clear H
  | H : shared w ?i, N : nth_error (ww w) ?i = Some ?x |- _ => rewrite (Sh _ _ H N) in *; clear H
  | H : not_owned w ?i, N : nth_error (ww w) ?i = Some ?x |- _ => rewrite (No _ _ H N) in *; clear H
  end; rewrite ?andb_false_r; cbn [andb negb] in *;
  repeat match goal with
  | |- exists e, Throw _ _ = Throw e _ => eexists; reflexivity
  | |- context [if ?b then _ else _] => destruct b; cbn [negb] in *
  | |- context [match wr_inner ?x with _ => _ end] => destruct (wr_inner x)
  end; try congruence.
  (* BoxValue *)
  destruct x0 as [k p ow]. destruct k; try congruence. destruct (has_value t); [eexists; reflexivity|congruence].
Qed.

(** A well-typed call throws exactly when it has a reason to, and exactly that
    exception; a disposed argument counts only if there is no other reason. *)
Theorem C47_exceptions_exactly w o e : reachable w -> cs_step w o <> Illtyped ->
  cs_step w o = Throw e w <-> reason w o e /\ (e = InvalidOperation -> forall e', e' <> InvalidOperation -> ~ reason w o e').
Proof.
  intros R T.
  assert (Now : forall e', e' <> InvalidOperation -> reason w o e' -> cs_step w o = Throw e' w).
  { intros e' D Q. destruct e'; cbn [reason] in Q; [congruence| | | |].
    - destruct Q as (b & h & -> & (k & ow & N)). cbn [cs_step] in T |- *. unfold typed in *.
      destruct (nth_error (ww w) b) as [x|]; [|congruence]. destruct (wkind_eqb _ _); [|congruence]. rewrite N in *. cbn [wr_kind wr_inner] in *.
      destruct (wkind_eqb _ _); [|congruence]. reflexivity.
    - destruct Q as (i & Hi & (k & p & N)). destruct o; cbn [edits In] in Hi; try contradiction; destruct Hi as [->|[]]; cbn [cs_step] in T |- *; unfold typed in *; rewrite N in *; cbn [wr_kind wr_own] in *.
      + destruct (negb (mutable t)); [congruence|]. destruct (wkind_eqb _ _); [|congruence]. destruct (nth_error (ww w) h) as [x|]; [|congruence]. destruct (wkind_eqb _ _); [|congruence]. reflexivity.
      + destruct (wkind_eqb _ _); [|congruence]. reflexivity.
    - assert (Sh : forall i x, shared w i -> nth_error (ww w) i = Some x -> is_shared (wr_own x) = true) by (intros i x (k & ow & N) N'; rewrite N in N'; injection N' as <-; reflexivity).
      assert (No : forall i x, not_owned w i -> nth_error (ww w) i = Some x -> is_owned (wr_own x) = false).
      { intros i x (k & p & ow & N & Q') N'. rewrite N in N'. injection N' as <-. destruct ow; [congruence|reflexivity..]. }
      destruct o; cbn [populates takes In] in Q; try (destruct Q as [(i & [] & _)|(i & [] & _)]; fail); cbn [cs_step] in T |- *; unfold typed in *;
      repeat match goal with
      | |- context [match nth_error (ww w) ?i with _ => _ end] => let x := fresh "x" in let N := fresh "N" in destruct (nth_error (ww w) i) as [x|] eqn:N; [|congruence]
      | |- context [if wkind_eqb ?a ?b then _ else _] => destruct (wkind_eqb a b); [|congruence]
      end;
      repeat match goal with
      | H : _ \/ _ |- _ => destruct H
      | H : exists _, _ |- _ => destruct H
      | H : _ /\ _ |- _ => destruct H
      | H : False |- _ => contradiction
      end; subst;
      repeat match goal with
      | H : shared w ?i, N : nth_error (ww w) ?i = Some ?x |- _ => rewrite (Sh _ _ H N) in *; clear H
      | H : not_owned w ?i, N : nth_error (ww w) ?i = Some ?x |- _ => rewrite (No _ _ H N) in *; clear H
      end; rewrite ?andb_false_r; cbn [andb negb];
      repeat match goal with |- context [if ?b then _ else _] => destruct b; cbn [negb] in *; try reflexivity end; reflexivity.
    - subst o. reflexivity. }
  split.
  - intros E. split; [eapply exceptions_mean; eauto|]. intros -> e' D Q. rewrite (Now _ D Q) in E. congruence.
  - intros [Q A]. destruct e; try (apply Now; [discriminate|exact Q]).
    cbn [reason] in Q. destruct (exceptions_when w o T) as [e E]; [left; exact Q|].
    pose proof (exceptions_mean _ _ _ _ R E) as Q'. destruct e; [exact E| | | |]; exfalso; (eapply A; [reflexivity| |exact Q']; discriminate).
Qed.
Print Assumptions C47_exceptions_exactly.

(** ** Ownership *)
(** In every world a program reaches, the native heap is one a C program can reach;
    every owned wrapper has a live box of its class, and no two the same one. *)
Theorem C47_owned_wrappers_have_their_own_boxes w : reachable w ->
  reaches (wh w) /\
  (forall i k p, nth_error (ww w) i = Some (mkWr k (Some p) Owned) -> held (wh w) p) /\
  (forall i j k k' p, nth_error (ww w) i = Some (mkWr k (Some p) Owned) -> nth_error (ww w) j = Some (mkWr k' (Some p) Owned) -> i = j).
Proof.
  intros R. pose proof (reachable_winv _ R) as W. split; [apply (wi_reach _ W)|]. split; [|apply (wi_inj _ W)].
  intros i k p N. eapply owned_held; eauto.
Qed.
Print Assumptions C47_owned_wrappers_have_their_own_boxes.

(** A call empties exactly the wrappers it takes, and touches no other. *)
Theorem C47_calls_empty_exactly_what_they_take w o r w' : cs_step w o = Return r w' ->
  forall i x, nth_error (ww w) i = Some x ->
    (In i (consumes o) -> gone w' i) /\ (~ In i (consumes o) -> nth_error (ww w') i = Some x).
Proof.
  intros E.
  assert (D : exists ws, (ww w' = ws \/ exists y, ww w' = ws ++ [y]) /\ ws = fold_left forget (consumes o) (ww w)).
  { destruct o; cbn [cs_step] in E; cbn [consumes takes fold_left]; unfold use, typed in E;
    repeat match type of E with
    | wrap _ _ _ _ = Return _ _ => apply wrap_return in E; destruct E as (? & ? & _ & _ & ->); cbn [ww]; eexists; split; [right; eexists; reflexivity|reflexivity]
    | plain _ _ = Return _ _ => apply plain_return in E; destruct E as (? & ? & _ & _ & ->); cbn [ww]; eexists; split; [left; reflexivity|reflexivity]
    | inner _ _ _ = Return _ _ => apply inner_return in E; destruct E as (? & ? & E)
    | context [match ?x with _ => _ end] => destruct x eqn:?; try discriminate
    | Return _ _ = Return _ _ => injection E as <- <-; cbn [ww]; eexists; split; [|reflexivity]; first [left; reflexivity|right; eexists; reflexivity]
    end. }
  destruct D as (ws & Eq & ->). intros i x N.
  assert (F : forall l ws0 y, nth_error ws0 i = Some y -> (In i l -> exists k ow, nth_error (fold_left forget l ws0) i = Some (mkWr k None ow)) /\
     (~ In i l -> nth_error (fold_left forget l ws0) i = Some y)).
  { clear. induction l as [|a l IH]; intros ws0 y N; cbn [fold_left In]; [split; [intros []|auto]|].
    destruct (Nat.eqb_spec a i) as [->|D].
    - assert (N' : nth_error (forget ws0 i) i = Some (null y)) by (rewrite forget_nth, Nat.eqb_refl, N; reflexivity).
      destruct (IH _ _ N') as [A B]. split; [|intros Q; exfalso; auto]. intros _.
      destruct (in_dec Nat.eq_dec i l) as [Hi|Hi]; [auto|]. rewrite (B Hi). unfold null. eauto.
    - assert (N' : nth_error (forget ws0 a) i = Some y). { rewrite forget_nth. destruct (Nat.eqb_spec a i); [contradiction|exact N]. }
      destruct (IH _ _ N') as [A B]. split; [intros [Q|Q]; [contradiction|auto]|intros Q; apply B; auto]. }
  destruct (F (consumes o) _ _ N) as [A B]. split.
  - intros Hi. destruct (A Hi) as (k & ow & G). exists k, ow. destruct Eq as [->|(y & ->)]; [exact G|now apply nth_old].
  - intros Hi. destruct Eq as [->|(y & ->)]; [exact (B Hi)|apply nth_old; exact (B Hi)].
Qed.
Print Assumptions C47_calls_empty_exactly_what_they_take.

(** A call whose arguments are all owned is never undefined behaviour. *)
Theorem C47_owned_arguments_are_safe w o : reachable w -> ~ broken o ->
  (forall i, In i (needs o) -> exists k, owns w i k) -> cs_step w o <> Undefined.
Proof.
  intros R Nb A. pose proof (reachable_winv _ R) as W. pose proof (wi_reach _ W) as Rh.
  assert (Nt : forall i k f, (exists k', owns w i k') -> (forall p, nth_error (ww w) i = Some (mkWr k (Some p) Owned) -> f (mkWr k (Some p) Owned) <> Undefined) -> typed w i k f <> Undefined).
  { intros i k f (k' & p & N) F. unfold typed. rewrite N. cbn [wr_kind]. destruct (wkind_eqb k' k) eqn:K; [|congruence]. apply wkind_eqb_eq in K. subst k'. eauto. }
  destruct o; cbn [needs In] in A; cbn [cs_step]; unfold use;
  try match goal with |- (if negb ?b then _ else _) <> _ => destruct b; cbn [negb]; [|congruence] end;
  repeat (let p := fresh "p" in let N := fresh "N" in
    apply Nt; [apply A; tauto|]; intros p N; cbn [inner wr_inner wr_own is_shared is_owned andb negb];
    first [ apply (owned_base _ W) in N; let a := fresh "a" in let b := fresh "bs" in let e := fresh "e" in let L := fresh "L" in destruct N as (a & b & e & -> & L)
          | apply (owned_con _ W) in N; let a := fresh "a" in let b := fresh "ci" in let L := fresh "L" in destruct N as (a & b & -> & L)
          | apply (owned_sid _ W) in N; let a := fresh "a" in let b := fresh "id" in let L := fresh "L" in destruct N as (a & b & -> & L)
          | apply (owned_sh _ W) in N; let a := fresh "a" in let b := fresh "h" in let L := fresh "L" in destruct N as (a & b & -> & L)
          | apply (owned_state _ W) in N; let a := fresh "a" in let b := fresh "v" in let L := fresh "L" in let T := fresh "T" in destruct N as (a & b & -> & L & T)
          | apply (owned_value _ W) in N; let a := fresh "a" in let b := fresh "v" in let L := fresh "L" in let T := fresh "T" in destruct N as (a & b & -> & L & T)
          | exfalso; destruct (wi_own _ W _ _ _ N) as (? & c0 & _ & _ & K0); destruct c0; discriminate K0 ]).
  all: unfold wrap, plain, step, new_box, alloc, base_at, con_handle_at, obj_handle_at, contract_at, sid_at, sh_at, owned_val, state_ok, val_at;
    repeat match goal with L : look _ _ = Some _ |- _ => rewrite L; clear L end; rewrite ?prim_eqb_refl;
    repeat match goal with T : dynprim_type _ = _ |- _ => rewrite T; rewrite ?ptype_eqb_refl end; cbn [negb];
    try congruence.
  - (* GetContractData *) destruct v; try discriminate T. destruct (contract_data_of _ _); congruence.
  - (* NewBox *) destruct v as [| | | | | | | | | | |s| |]; try congruence. destruct s; congruence.
  - (* BoxValue *) destruct (A x (or_introl eq_refl)) as (k & p & N). rewrite N. destruct k; try congruence. destruct (has_value t); [|congruence].
    destruct (owned_value _ W _ _ _ N) as (a & v & -> & L & T). cbn [inner wr_inner]. rewrite L. congruence.
  - (* BindState *) destruct v; try discriminate T. destruct (bind_state _ _ _); congruence.
  - destruct (state_get _ _ _); congruence.
  - destruct (state_get _ _ _); congruence.
  - destruct (register_contract _ _) as [[]]; congruence.
  - exfalso. apply Nb. unfold broken. repeat eexists.
  - destruct v; try discriminate T. destruct (object_remove _ _ _) as [[]]; congruence.
  - (* Dispose *) destruct (nth_error (ww w) x) as [[k [p|] ow]|] eqn:N; cbn [wr_own wr_inner wr_kind]; try congruence; destruct ow; try congruence.
    destruct (wi_own _ W _ _ _ N) as (a & c & -> & L & K). rewrite L. destruct c; cbn [cell_kind] in K; try discriminate K; injection K as <-; congruence.
  - destruct (object_create _ _ _ _) as [[]]; congruence.
Qed.
Print Assumptions C47_owned_arguments_are_safe.

(** ** Fields of objects *)
(** Reading through C# is reading through the C API. *)
Theorem C47_reading_is_reading_in_C w c b o f v :
  sees w c b o f v <->
  has_accessor f = true /\ exists pc pb po oc ob oo, nth_error (ww w) c = Some (mkWr WCon (Some pc) oc) /\
    nth_error (ww w) b = Some (mkWr WBase (Some pb) ob) /\ nth_error (ww w) o = Some (mkWr (WVal TObjectHandle) (Some po) oo) /\
    shows (wh w) pc pb po f v.
Proof. apply sees_shows. Qed.
Print Assumptions C47_reading_is_reading_in_C.

Theorem C47_write_then_read w c b o f v0 x v :
  reachable w -> sees w c b o f v0 -> ~ shared w b -> owns w o (WVal TObjectHandle) ->
  owns w x (WVal (exfield_prim f)) -> holds w x v ->
  exists w', cs_write w c b o f x = Return Nothing w' /\ sees w' c b o f v /\ gone w' x /\
    forall c1 b1 o1 f1 v1, sees w c1 b1 o1 f1 v1 -> owns w o1 (WVal TObjectHandle) ->
      (owns w b WBase /\ owns w b1 WBase /\ b1 <> b) \/ f1 <> f \/ (exists y y1, stands_for w o y /\ stands_for w o1 y1 /\ y <> y1) ->
      sees w' c1 b1 o1 f1 v1.
Proof.
  intros R S Sb (po & No) Ox Hx. pose proof (reachable_winv _ R) as W. pose proof (wi_reach _ W) as Rh.
  destruct (owns_holds _ _ _ _ W Ox Hx) as (ax & Nx & Lx & T & _).
  apply sees_shows in S. destruct S as (Hf & pc & pb & po' & oc & ob & oo & Nc & Nb & No' & S). rewrite No in No'. injection No' as <- <-.
  assert (Dif : forall i q, nth_error (ww w) i = Some (mkWr (WVal TObjectHandle) (Some q) Owned) -> q <> PBox ax).
  { intros i q N ->. assert (i = x) by (eapply wi_inj; eauto). subst i. rewrite N in Nx. injection Nx as Nx. destruct f; discriminate. }
  destruct (C44_write_then_read (wh w) pc pb po f v0 (PBox ax) v Rh S (owned_held _ W _ _ _ No) (owned_held _ W _ _ _ Nx)
              (proj2 (loads_box _ _ _) Lx) T (Dif _ _ No)) as (H' & Wr & S' & _ & Fr).
  pose proof (agree_write w c b o f pc pb po oc ob Owned x (PBox ax) Owned Hf) as A. rewrite Wr in A. cbn [agree told] in A.
  destruct A as (ws & A & Gx & Keep); auto.
  { intros ->. apply Sb. unfold shared. eauto. }
  exists (mkWorld H' ws). split; [exact A|].
  assert (Kp : forall i k p q, nth_error (ww w) i = Some (mkWr k p q) -> k <> WVal (exfield_prim f) -> nth_error ws i = Some (mkWr k p q)).
  { intros i k p q N Nk. apply Keep; [|exact N]. intros ->. rewrite N in Nx. congruence. }
  assert (Ko : WVal TObjectHandle <> WVal (exfield_prim f)) by (destruct f; discriminate).
  split; [|split].
  - apply sees_shows. split; [exact Hf|]. exists pc, pb, po, oc, ob, Owned. cbn [wh ww].
    repeat (split; [apply Kp; [assumption|first [discriminate|exact Ko]]|]). exact S'.
  - unfold gone. cbn [ww]. eauto.
  - intros c1 b1 o1 f1 v1 S1 (po1 & No1) D. apply sees_shows in S1. destruct S1 as (Hf1 & pc1 & pb1 & po1' & oc1 & ob1 & oo1 & Nc1 & Nb1 & No1' & S1).
    rewrite No1 in No1'. injection No1' as <- <-. apply sees_shows. split; [exact Hf1|]. exists pc1, pb1, po1, oc1, ob1, Owned. cbn [wh ww].
    repeat (split; [apply Kp; [assumption|first [discriminate|exact Ko]]|]).
    eapply Fr; eauto.
    + eapply owned_held; eauto.
    + destruct D as [((q & Nq) & (q1 & Nq1) & D)|[D|(y & y1 & Y & Y1 & D)]].
      * left. rewrite Nb in Nq. injection Nq as -> ->. rewrite Nb1 in Nq1. injection Nq1 as -> ->. intros ->. apply D. eapply wi_inj; eauto.
      * right. left. exact D.
      * right. right. destruct Y as (? & ? & ? & Ny & Y). destruct Y1 as (? & ? & ? & Ny1 & Y1). rewrite No in Ny. rewrite No1 in Ny1.
        injection Ny as <- <- <-. injection Ny1 as <- <- <-. eauto.
Qed.
Print Assumptions C47_write_then_read.

(** What is seen lasts until a program assigns to a state or gives up a wrapper. *)
Theorem C47_fields_last_until_assigned w l w' c b o f v :
  reachable w -> sees w c b o f v -> runs w l w' ->
  (forall p, In p l -> ~ assigns p /\ ~ broken p) ->
  owns w' c WCon -> owns w' b WBase -> owns w' o (WVal TObjectHandle) ->
  sees w' c b o f v.
Proof.
  intros R S Rn. revert R S. induction Rn as [w|w p r w1 l w2 E Rn IH|w p e w1 l w2 E Rn IH]; intros R S Np Oc Ob Oo; [exact S| |].
  2:{ apply throw_same in E. subst w1. apply IH; auto. intros; apply Np; now right. }
  destruct (Np _ (or_introl eq_refl)) as [Na Nbr]. assert (Np' : forall p, In p l -> ~ assigns p /\ ~ broken p) by (intros; apply Np; now right).
  pose proof (reachable_winv _ R) as W.
  assert (R1 : reachable w1). { eapply reachable_runs; [exact R|eapply runs_return; [exact E|constructor]|]. intros q [<-|[]]; exact Nbr. }
  apply IH; auto. clear IH. pose proof (reachable_winv _ R1) as W1.
  destruct (step_did _ _ _ _ W Nbr E) as [_ K C].
  apply sees_shows in S. destruct S as (Hf & pc & pb & po & oc & ob & oo & Nc & Nb & No & S).
  assert (Q : forall i k p o k', nth_error (ww w) i = Some (mkWr k (Some p) o) -> owns w2 i k' -> nth_error (ww w1) i = Some (mkWr k (Some p) o) /\ o = Owned).
  { intros i k q ow k' N (q' & N2). destruct (runs_inv _ _ _ Rn W1 (fun p H => proj2 (Np' p H))) as [_ K2].
    destruct (K _ _ N) as [N1|N1]; destruct (K2 _ _ N1) as [N2'|N2']; rewrite N2 in N2'; unfold null in N2'; cbn in N2'; try congruence.
    split; [exact N1|congruence]. }
  destruct (Q _ _ _ _ _ Nc Oc) as [Nc1 ->]. destruct (Q _ _ _ _ _ Nb Ob) as [Nb1 ->]. destruct (Q _ _ _ _ _ No Oo) as [No1 ->].
  apply sees_shows. split; [exact Hf|]. exists pc, pb, po, Owned, Owned, Owned. repeat (split; [assumption|]).
  destruct C as [C|(k & r0 & C & Og & _)]; [now rewrite C|].
  eapply C44_only_writes_change_fields; eauto.
  - apply (wi_reach _ W).
  - eapply owned_held; eauto.
  - eapply owned_held; eauto.
  - eapply owned_held; eauto.
  - intros t s q ->. destruct Og as (s' & x & ow & -> & _). apply Na. unfold assigns. eauto.
Qed.
Print Assumptions C47_fields_last_until_assigned.

(** With owned wrappers reading a field never is undefined behaviour or throws. *)
Theorem C47_reading_is_defined w c b o f :
  reachable w -> has_accessor f = true -> owns w c WCon -> owns w b WBase -> owns w o (WVal TObjectHandle) ->
  cs_read w c b o f = Crash \/ exists v, sees w c b o f v /\ dynprim_type v = TPrim (exfield_prim f).
Proof.
  intros R Hf (pc & Nc) (pb & Nb) (po & No). pose proof (reachable_winv _ R) as W. pose proof (wi_reach _ W) as Rh.
  destruct (owned_con _ W _ _ Nc) as (ac & ci & -> & Lc). destruct (owned_base _ W _ _ Nb) as (ab & bs & e & -> & Lb).
  destruct (owned_value _ W _ _ _ No) as (ao & d & -> & Lo & T). destruct d; try discriminate T.
  assert (D : read_field (wh w) (PBox ac) (PBox ab) (PBox ao) f = Abort \/ exists v, shows (wh w) (PBox ac) (PBox ab) (PBox ao) f v).
  { eapply C44_reading_is_defined; eauto.
    - cbn [step contract_at]. rewrite Lc. reflexivity.
    - cbn [step base_at]. rewrite Lb. congruence.
    - apply loads_box; eauto. }
  destruct D as [D|(v & S)].
  - left. pose proof (agree_read w c b o f _ _ _ _ _ _ Hf Nc Nb No) as A. rewrite D in A. exact A.
  - right. destruct (C44_reading_is_all_or_nothing _ _ _ _ _ _ Rh S f) as (v' & S' & T'). exists v'. split; [|exact T'].
    apply sees_shows. split; [exact Hf|]. do 6 eexists. eauto.
Qed.
Print Assumptions C47_reading_is_defined.

(** A number, a boolean or a string put into a wrapper is read back with [Value] (the empty
    string cannot be put there); the wrappers of handles have no [Value]. *)
Theorem C47_new_boxes_are_read_back w v : reachable w ->
  (forall h, v <> VObjectHandle h) -> (forall h, v <> VContractDataHandle h) -> v <> VString Coq.Strings.String.EmptyString ->
  exists x w', cs_step w (NewBox v) = Return (Ref x) w' /\ nth_error (ww w) x = None /\ holds w' x v /\
    exists t, dynprim_type v = TPrim t /\ owns w' x (WVal t).
Proof.
  intros R No Nc Ne.
  exists (length (ww w)), (mkWorld (wh w ++ [Some (CVal v)])
    (ww w ++ [mkWr (WVal (match dynprim_type v with TPrim t => t | TVec t => t end)) (Some (PBox (length (wh w)))) Owned])).
  assert (E : cs_step w (NewBox v) = Return (Ref (length (ww w))) (mkWorld (wh w ++ [Some (CVal v)])
    (ww w ++ [mkWr (WVal (match dynprim_type v with TPrim t => t | TVec t => t end)) (Some (PBox (length (wh w)))) Owned]))).
  { destruct v; try reflexivity; try (exfalso; eapply No; reflexivity); try (exfalso; eapply Nc; reflexivity).
    match goal with |- context [VString ?s] => destruct s; [congruence|reflexivity] end. }
  split; [exact E|]. split; [apply nth_error_None; lia|]. split.
  - unfold holds. cbn [cs_step ww wh]. rewrite nth_new. destruct v; try (exfalso; eapply No; reflexivity); try (exfalso; eapply Nc; reflexivity);
      cbn [dynprim_type has_value]; unfold inner; cbn [wr_inner]; cbn [step]; cbn [val_at]; rewrite look_new; reflexivity.
  - destruct v; cbn [dynprim_type]; eexists; (split; [reflexivity|]); eexists; cbn [ww]; apply nth_new.
Qed.
Print Assumptions C47_new_boxes_are_read_back.
Theorem C47_handles_have_no_value w x t : t = TObjectHandle \/ t = TContractDataHandle ->
  (exists p o, nth_error (ww w) x = Some (mkWr (WVal t) p o)) -> cs_step w (BoxValue x) = Illtyped.
Proof. intros [-> | ->] (p & o & N); cbn [cs_step]; rewrite N; reflexivity. Qed.
Print Assumptions C47_handles_have_no_value.

(** ** States of their own *)
Theorem C47_new_state_holds_its_value w t x v : reachable w -> owns w x (WVal t) -> holds w x v ->
  exists s w', cs_step w (NewState t x) = Return (Ref s) w' /\ owns w' s (WSt t) /\ reads w' t s v /\
    gone w' x /\ nth_error (ww w) s = None.
Proof.
  intros R Ox Hx. pose proof (reachable_winv _ R) as W. destruct (owns_holds _ _ _ _ W Ox Hx) as (ax & Nx & Lx & T & Hv).
  assert (E : cs_step w (NewState t x) = Return (Ref (length (ww w)))
    (mkWorld (free (wh w) ax ++ [Some (CSt t (PPrim v))]) (forget (ww w) x ++ [mkWr (WSt t) (Some (PBox (length (wh w)))) Owned]))).
  { cbn [cs_step]. rewrite (use_known _ _ _ _ _ _ Nx). cbn [step owned_val]. rewrite Lx, T, ptype_eqb_refl. unfold new_box, alloc, wrap.
    now rewrite free_length, forget_length. }
  assert (Nb : ~ broken (NewState t x)) by (intros (? & ? & ? & ? & ? & ? & ? & ? & ? & ? & ? & Q); discriminate).
  pose proof (dd_inv _ _ _ _ (step_did _ _ _ _ W Nb E)) as W'.
  exists (length (ww w)). eexists. split; [exact E|].
  assert (Ns : nth_error (forget (ww w) x ++ [mkWr (WSt t) (Some (PBox (length (wh w)))) Owned]) (length (ww w)) = Some (mkWr (WSt t) (Some (PBox (length (wh w)))) Owned)).
  { rewrite <- (forget_length (ww w) x). apply nth_new. }
  split; [|split; [|split]].
  - exists (PBox (length (wh w))). exact Ns.
  - eapply reads_box; [exact W'|exact Ns|]. split; [exact Hv|]. cbn [wh]. rewrite <- (free_length (wh w) ax). apply look_new.
  - exists (WVal t), Owned. cbn [ww]. apply nth_old. rewrite forget_nth, Nat.eqb_refl, Nx. reflexivity.
  - apply nth_error_None. lia.
Qed.
Print Assumptions C47_new_state_holds_its_value.

(** Assigning changes that state and nothing else the program can read. *)
Theorem C47_assigned_state_holds_its_value w t s x v : reachable w -> owns w s (WSt t) -> owns w x (WVal t) -> holds w x v ->
  exists w', cs_step w (SetStateValue t s x) = Return Nothing w' /\ owns w' s (WSt t) /\ reads w' t s v /\ gone w' x /\
    (forall t1 s1 v1, s1 <> s -> owns w s1 (WSt t1) -> reads w t1 s1 v1 -> reads w' t1 s1 v1) /\
    (forall x1 t1 v1, x1 <> x -> owns w x1 (WVal t1) -> holds w x1 v1 -> holds w' x1 v1) /\
    (forall c b o f v1, owns w o (WVal TObjectHandle) -> sees w c b o f v1 -> sees w' c b o f v1).
Proof.
  intros R (ps & Ns) Ox Hx. pose proof (reachable_winv _ R) as W. destruct (owns_holds _ _ _ _ W Ox Hx) as (ax & Nx & Lx & T & Hv).
  destruct (owned_state _ W _ _ _ Ns) as (sa & d & -> & Ls & _).
  set (H' := free (put (wh w) sa (CSt t (PPrim v))) ax).
  assert (St : step (wh w) (State__value_set t (PBox sa) (PBox ax)) = Done RUnit H').
  { cbn [step state_ok]. rewrite Ls, prim_eqb_refl. cbn [negb owned_val]. rewrite Lx, T, ptype_eqb_refl. reflexivity. }
  assert (E : cs_step w (SetStateValue t s x) = Return Nothing (mkWorld H' (forget (ww w) x))).
  { cbn [cs_step]. rewrite (typed_known _ _ _ _ _ _ Ns), (typed_known _ _ _ _ _ _ Nx). cbn [inner wr_inner]. rewrite St. reflexivity. }
  assert (Nb : ~ broken (SetStateValue t s x)) by (intros (? & ? & ? & ? & ? & ? & ? & ? & ? & ? & ? & Q); discriminate).
  pose proof (dd_inv _ _ _ _ (step_did _ _ _ _ W Nb E)) as W'.
  assert (Kp : forall i y, i <> x -> nth_error (ww w) i = Some y -> nth_error (forget (ww w) x) i = Some y).
  { intros i y D N. rewrite forget_nth. destruct (Nat.eqb_spec x i); [congruence|exact N]. }
  assert (D1 : s <> x) by (intros ->; rewrite Ns in Nx; discriminate).
  assert (La : forall a, a <> sa -> a <> ax -> look H' a = look (wh w) a).
  { intros a D2 D3. unfold H'. rewrite look_free. destruct (Nat.eqb_spec ax a); [congruence|]. rewrite (look_put _ _ _ _ _ Ls).
    destruct (Nat.eqb_spec sa a); [congruence|reflexivity]. }
  assert (Ns' : nth_error (forget (ww w) x) s = Some (mkWr (WSt t) (Some (PBox sa)) Owned)) by (apply Kp; auto).
  exists (mkWorld H' (forget (ww w) x)). split; [exact E|]. split; [exists (PBox sa); exact Ns'|].
  split; [|split; [|split; [|split]]].
  - eapply reads_box; [exact W'|exact Ns'|]. split; [exact Hv|]. cbn [wh]. unfold H'. rewrite look_free.
    destruct (Nat.eqb_spec ax sa) as [->|]; [congruence|]. rewrite (look_put _ _ _ _ _ Ls), Nat.eqb_refl. reflexivity.
  - exists (WVal t), Owned. cbn [ww]. rewrite forget_nth, Nat.eqb_refl, Nx. reflexivity.
  - intros t1 s1 v1 D (p1 & N1) Rd. destruct (owned_state _ W _ _ _ N1) as (a1 & d1 & -> & L1 & _).
    apply (reads_box _ W _ _ _ _ N1) in Rd. destruct Rd as [Hv1 Q]. assert (D2 : s1 <> x) by (intros ->; rewrite N1 in Nx; discriminate).
    eapply reads_box; [exact W'|cbn [ww]; apply Kp; [exact D2|exact N1]|]. split; [exact Hv1|]. cbn [wh]. rewrite La; [exact Q| |].
    + intros ->. apply D. eapply (wi_inj _ W); eauto.
    + intros ->. congruence.
  - intros x1 t1 v1 D O1 Hd. destruct (owns_holds _ _ _ _ W O1 Hd) as (a1 & N1 & L1 & T1 & Hv1).
    unfold holds. cbn [cs_step]. cbn [ww]. rewrite (Kp _ _ D N1). rewrite Hv1. cbn [inner wr_inner step val_at wh]. rewrite La, L1; [reflexivity| |].
    + intros ->. congruence.
    + intros ->. apply D. eapply (wi_inj _ W); eauto.
  - intros c b o f v1 (po & No) S. apply sees_shows in S. destruct S as (Hf & pc & pb & po' & oc & ob & oo & Nc & Nb' & No' & S).
    rewrite No in No'. injection No' as <- <-. apply sees_shows. split; [exact Hf|]. exists pc, pb, po, oc, ob, Owned. cbn [ww wh].
    assert (Do : o <> x). { intros ->. rewrite No in Nx. injection Nx as <- _. discriminate Hv. }
    assert (Dc : c <> x) by (intros ->; rewrite Nc in Nx; discriminate). assert (Db : b <> x) by (intros ->; rewrite Nb' in Nx; discriminate).
    split; [apply Kp; auto|]. split; [apply Kp; auto|]. split; [apply Kp; auto|].
    (* the boxes involved are not touched *)
    pose proof (reaches_hinv _ (wi_reach _ W)) as I. pose proof (proj1 (step_change _ _ _ _ I St)) as I'.
    apply (shows_char _ _ _ _ _ _ I) in S. destruct S as (ci & ba & bb & oh & P & V).
    destruct (points_box _ _ _ _ _ _ _ _ P (owned_held _ W _ _ _ No)) as (ca & oa & e & -> & Lc & -> & Lb & -> & Lo).
    apply (shows_char _ _ _ _ _ _ I'). exists ci, ba, bb, oh. split; [|exact V].
    eapply box_points; rewrite La; try eassumption; intros ->; try congruence.
    apply Do. eapply (wi_inj _ W); eauto.
Qed.
Print Assumptions C47_assigned_state_holds_its_value.

(** A state keeps its value until the program assigns to that very state. *)
Theorem C47_states_last_until_assigned w l w' t s v : reachable w -> owns w s (WSt t) -> reads w t s v -> runs w l w' ->
  (forall p, In p l -> ~ broken p /\ forall t1 x, p <> SetStateValue t1 s x) -> owns w' s (WSt t) ->
  reads w' t s v.
Proof.
  intros R O S Rn. revert R O S. induction Rn as [w|w p r w1 l w2 E Rn IH|w p e w1 l w2 E Rn IH]; intros R (q & N) S Np O2; [exact S| |].
  2:{ apply throw_same in E. subst w1. apply IH; auto; [exists q; exact N|]. intros; apply Np; now right. }
  destruct (Np _ (or_introl eq_refl)) as [Nbr Na]. assert (Np' : forall p, In p l -> ~ broken p /\ forall t1 x, p <> SetStateValue t1 s x) by (intros; apply Np; now right).
  pose proof (reachable_winv _ R) as W.
  assert (R1 : reachable w1). { eapply reachable_runs; [exact R|eapply runs_return; [exact E|constructor]|]. intros q' [<-|[]]; exact Nbr. }
  pose proof (reachable_winv _ R1) as W1.
  assert (N1 : nth_error (ww w1) s = Some (mkWr (WSt t) (Some q) Owned)).
  { destruct O2 as (q2 & N2). destruct (runs_inv _ _ _ Rn W1 (fun p H => proj1 (Np' p H))) as [_ K2].
    destruct (dd_keep _ _ _ _ (step_did _ _ _ _ W Nbr E) _ _ N) as [N1|N1]; [exact N1|]. destruct (K2 _ _ N1) as [Q|Q]; rewrite N2 in Q; unfold null in Q; cbn in Q; congruence. }
  apply IH; auto; [exists q; exact N1|]. clear IH.
  destruct (owned_state _ W _ _ _ N) as (a & d & -> & L & _).
  apply (reads_box _ W _ _ _ _ N) in S. destruct S as [Hv Q]. apply (reads_box _ W1 _ _ _ _ N1). split; [exact Hv|].
  destruct (step_look _ _ _ _ _ _ _ _ W Nbr E N1 Q) as [L'|(c & r0 & y & _ & Og & L' & _ & Ch)]; [exact L'|].
  inversion Ch as [y0 Q0|y0 Q0|y0 Q1 Q2| | |t0 v0 p0 v1 Q0]; subst; [exact L'|].
  exfalso. destruct Og as (s' & x & ow & -> & Ns'). assert (s' = s); [|subst s'; eapply Na; reflexivity].
  destruct ow; [eapply (wi_inj _ W); eauto| |].
  - assert (K : WSt t = WBase) by (eapply (wi_ref _ W); [exact Ns'|discriminate]). discriminate K.
  - assert (K : WSt t = WBase) by (eapply (wi_ref _ W); [exact Ns'|discriminate]). discriminate K.
Qed.
Print Assumptions C47_states_last_until_assigned.

(** ** Baselines and contracts *)
Lemma owned_through w p r w1 l w2 i k q : reachable w -> cs_step w p = Return r w1 -> ~ broken p -> runs w1 l w2 -> (forall p, In p l -> ~ broken p) ->
  nth_error (ww w) i = Some (mkWr k (Some q) Owned) -> (exists k', owns w2 i k') ->
  reachable w1 /\ nth_error (ww w1) i = Some (mkWr k (Some q) Owned).
Proof.
  intros R E Nbr Rn Np N (k' & q2 & N2).
  assert (R1 : reachable w1). { eapply reachable_runs; [exact R|eapply runs_return; [exact E|constructor]|]. intros q' [<-|[]]; exact Nbr. }
  split; [exact R1|]. destruct (runs_inv _ _ _ Rn (reachable_winv _ R1) Np) as [_ K2].
  destruct (dd_keep _ _ _ _ (step_did _ _ _ _ (reachable_winv _ R) Nbr E) _ _ N) as [N1|N1]; [exact N1|].
  destruct (K2 _ _ N1) as [Q|Q]; rewrite N2 in Q; unfold null in Q; cbn in Q; congruence.
Qed.
(** One call and the baseline behind an owned wrapper. *)
Lemma base_through w p r w1 i a b e : winv w -> ~ broken p -> cs_step w p = Return r w1 -> nth_error (ww w1) i = Some (mkWr WBase (Some (PBox a)) Owned) ->
  look (wh w) a = Some (CBase b e) -> exists b1 e1, look (wh w1) a = Some (CBase b1 e1) /\ b_kind b1 = b_kind b /\
    (registered b1 <-> registered b \/ exists j ow, p = Register j /\ nth_error (ww w) j = Some (mkWr WBase (Some (PBox a)) ow)).
Proof.
  intros W Nbr E N L. pose proof (step_did _ _ _ _ W Nbr E) as D. destruct (owned_base _ (dd_inv _ _ _ _ D) _ _ N) as (a' & b1 & e1 & Qa & L1). injection Qa as <-.
  exists b1, e1. split; [exact L1|].
  assert (Rw : forall j ow, p = Register j -> nth_error (ww w) j = Some (mkWr WBase (Some (PBox a)) ow) -> registered b1 /\ wh w1 <> wh w).
  { intros j ow -> Nj. cbn [cs_step] in E. rewrite (typed_known _ _ _ _ _ _ Nj) in E. cbn [wr_own] in E. destruct (is_shared ow); [discriminate|].
    cbn [inner wr_inner] in E. apply wrap_return in E. destruct E as (q & H & E & _ & ->). cbn [wh] in *.
    destruct (step_base _ _ _ _ _ _ _ (reaches_hinv _ (wi_reach _ W)) E L1) as [(k & Q & _)|(b0 & e0 & _ & _ & Rg)]; [discriminate|].
    split; [apply Rg; now right|]. intros ->. cbn [step base_at] in E. rewrite L in E. destruct (register_contract b Example) as [[ci| |] b']; try discriminate.
    apply new_box_done in E. destruct E as [_ E]. apply (f_equal (@length _)) in E. rewrite app_length, put_length in E. cbn in E. lia. }
  destruct (dd_call _ _ _ _ D) as [Q|(c & r0 & C & Og & _)].
  - rewrite Q in L1. rewrite L in L1. injection L1 as <- <-. split; [reflexivity|]. split; [auto|]. intros [Rg|(j & ow & Ep & Nj)]; [exact Rg|].
    destruct (Rw _ _ Ep Nj) as [_ X]. contradiction.
  - destruct (step_base _ _ _ _ _ _ _ (reaches_hinv _ (wi_reach _ W)) C L1) as [(k & _ & _ & -> & _)|(b0 & e0 & L0 & K & Rg)]; [apply look_lt in L; lia|].
    rewrite L in L0. injection L0 as <- <-. split; [exact K|]. rewrite Rg. split.
    + intros [Q|Q]; [auto|]. right. rewrite Q in Og. destruct Og as (j & ow & Ep & Nj). eauto.
    + intros [Q|(j & ow & Ep & Nj)]; [auto|]. apply Rg. exact (proj1 (Rw _ _ Ep Nj)).
Qed.

Lemma new_baseline w m : cs_step w (NewBaseline m) =
  Return (Ref (length (ww w))) (mkWorld (wh w ++ [Some (CBase (baseline_new (if m then KMain else KFork)) 0)]) (ww w ++ [mkWr WBase (Some (PBox (length (wh w)))) Owned])).
Proof. reflexivity. Qed.
Lemma not_broken_new m : ~ broken (NewBaseline m). Proof. intros (? & ? & ? & ? & ? & ? & ? & ? & ? & ? & ? & Q). discriminate. Qed.


Lemma s_ne : SharedRef <> Owned. Proof. discriminate. Qed.
Lemma m_ne : MutRef <> Owned. Proof. discriminate. Qed.
Lemma base_runs w l w' i a b e : runs w l w' -> reachable w -> (forall p, In p l -> ~ broken p) -> owns w' i WBase ->
  nth_error (ww w) i = Some (mkWr WBase (Some (PBox a)) Owned) -> look (wh w) a = Some (CBase b e) ->
  exists b' e', nth_error (ww w') i = Some (mkWr WBase (Some (PBox a)) Owned) /\ look (wh w') a = Some (CBase b' e') /\
    b_kind b' = b_kind b /\ (registered b -> registered b') /\
    ((forall j ow, nth_error (ww w) j = Some (mkWr WBase (Some (PBox a)) ow) -> j = i) ->
     (forall p, In p l -> p <> Register i /\ forall m, p <> BorrowBaseline i m) -> registered b' -> registered b).
Proof.
  intros Rn. revert b e. induction Rn as [w|w p r w1 l w2 E Rn IH|w p x w1 l w2 E Rn IH]; intros b e R Np O N L.
  - exists b, e. auto 6.
  - pose proof (Np _ (or_introl eq_refl)) as Nbr. assert (Np' : forall p, In p l -> ~ broken p) by (intros; apply Np; now right).
    pose proof (reachable_winv _ R) as W.
    destruct (owned_through _ _ _ _ _ _ _ _ _ R E Nbr Rn Np' N (ex_intro _ _ O)) as [R1 N1]. pose proof (reachable_winv _ R1) as W1.
    destruct (base_through _ _ _ _ _ _ _ _ W Nbr E N1 L) as (b1 & e1 & L1 & K1 & Rg1).
    destruct (IH _ _ R1 Np' O N1 L1) as (b2 & e2 & N2 & L2 & K2 & F2 & B2). exists b2, e2. split; [exact N2|]. split; [exact L2|]. split; [congruence|].
    split; [intros Q; apply F2, Rg1; now left|].
    intros Alone Nl Q. destruct (Nl _ (or_introl eq_refl)) as [Nr Nbw].
    assert (Q1 : registered b1).
    { apply B2; auto; [|intros; apply Nl; now right]. intros j ow Nj. destruct ow; [eapply (wi_inj _ W1); eauto| |].
      - destruct (step_views _ _ _ _ _ _ _ E s_ne Nj) as [Q0|(b' & m & ob & -> & Nb)]; [eapply Alone; eauto|].
        apply Alone in Nb. subst b'. exfalso. eapply Nbw; reflexivity.
      - destruct (step_views _ _ _ _ _ _ _ E m_ne Nj) as [Q0|(b' & m & ob & -> & Nb)]; [eapply Alone; eauto|].
        apply Alone in Nb. subst b'. exfalso. eapply Nbw; reflexivity. }
    apply Rg1 in Q1. destruct Q1 as [Q1|(j & ow & -> & Nj)]; [exact Q1|]. apply Alone in Nj. subst j. congruence.
  - apply throw_same in E. subst w1. destruct (IH _ _ R (fun p H => Np p (or_intror H)) O N L) as (b2 & e2 & N2 & L2 & K2 & F2 & B2).
    exists b2, e2. repeat (split; [assumption|]). intros Al Nl. apply B2; auto. intros; apply Nl; now right.
Qed.

(** [IsMain] answers what the baseline was made with. *)
Theorem C47_baselines_keep_their_kind w m b w1 l w2 : reachable w -> cs_step w (NewBaseline m) = Return (Ref b) w1 ->
  runs w1 l w2 -> (forall p, In p l -> ~ broken p) -> owns w2 b WBase ->
  cs_step w2 (IsMain b) = Return (Flag m) w2.
Proof.
  intros R E Rn Np O.
  assert (R1 : reachable w1). { eapply reachable_runs; [exact R|eapply runs_return; [exact E|constructor]|]. intros q' [<-|[]]; apply not_broken_new. }
  rewrite new_baseline in E. injection E as <- E. subst w1.
  destruct (base_runs _ _ _ _ _ _ _ Rn R1 Np O (nth_new _ _) (look_new _ _)) as (b' & e' & N & L & K & _).
  cbn [cs_step]. rewrite (use_known _ _ _ _ _ _ N). cbn [step base_at]. rewrite L, K. cbn [plain]. destruct w2, m; reflexivity.
Qed.
Print Assumptions C47_baselines_keep_their_kind.


(** Baseline references are to addresses that were handed out. *)
Lemma views_old w : reachable w -> forall j a ow, nth_error (ww w) j = Some (mkWr WBase (Some (PBox a)) ow) -> a < length (wh w).
Proof.
  intros (l & Rn & Np).
  assert (G : forall w l w', runs w l w' -> winv w -> (forall p, In p l -> ~ broken p) ->
     (forall j a ow, nth_error (ww w) j = Some (mkWr WBase (Some (PBox a)) ow) -> a < length (wh w)) ->
     forall j a ow, nth_error (ww w') j = Some (mkWr WBase (Some (PBox a)) ow) -> a < length (wh w')).
  { clear. induction 1 as [w|w p r w1 l w2 E Rn IH|w p x w1 l w2 E Rn IH]; intros W Np V; [exact V| |].
    - pose proof (step_did _ _ _ _ W (Np _ (or_introl eq_refl)) E) as D. pose proof (dd_inv _ _ _ _ D) as W1. apply IH; [exact W1|intros; apply Np; now right|].
      assert (Le : length (wh w) <= length (wh w1)). { destruct (dd_call _ _ _ _ D) as [-> |(c & r0 & C & _)]; [lia|]. eapply step_length; eauto. }
      assert (Ow : forall j a, nth_error (ww w1) j = Some (mkWr WBase (Some (PBox a)) Owned) -> a < length (wh w1)).
      { intros j a N. destruct (owned_base _ W1 _ _ N) as (a' & b & e & Qa & L). injection Qa as <-. eapply look_lt; eauto. }
      intros j a ow N. destruct ow; [eapply Ow; eauto| |].
      + destruct (step_views _ _ _ _ _ _ _ E s_ne N) as [Q|(b & m & ob & _ & Q)]; apply V in Q; lia.
      + destruct (step_views _ _ _ _ _ _ _ E m_ne N) as [Q|(b & m & ob & _ & Q)]; apply V in Q; lia.
    - apply throw_same in E. subst w1. apply IH; auto. intros; apply Np; now right. }
  eapply G; eauto using winv_empty. intros [|j]; discriminate.
Qed.

(** A borrowed baseline shows what the baseline shows; it is shared, and so cannot be
    changed through, exactly when it was borrowed so. *)
Theorem C47_borrowed_baselines_show_the_same w b m : reachable w -> owns w b WBase ->
  exists r w', cs_step w (BorrowBaseline b m) = Return (Ref r) w' /\ nth_error (ww w) r = None /\
    (shared w' r <-> m = false) /\ not_owned w' r /\ forall c o f v, sees w' c r o f v <-> sees w' c b o f v.
Proof.
  intros R (p & N). cbn [cs_step]. rewrite (use_known _ _ _ _ _ _ N).
  set (y := mkWr WBase (Some p) (if m then MutRef else SharedRef)). exists (length (ww w)). eexists. split; [reflexivity|].
  assert (Nr : nth_error (ww w ++ [y]) (length (ww w)) = Some y) by apply nth_new.
  split; [apply nth_error_None; lia|]. split; [|split].
  - split.
    + intros (k & q & Q). cbn [ww] in Q. rewrite Nr in Q. injection Q as _ _ Q. destruct m; [discriminate|reflexivity].
    + intros ->. do 2 eexists. cbn [ww]. exact Nr.
  - do 3 eexists. cbn [ww]. split; [exact Nr|]. destruct m; discriminate.
  - intros c o f v. rewrite !sees_shows. cbn [ww wh]. split; intros (Hf & pc & pb & po & oc & ob & oo & Nc & Nb & No & S); (split; [exact Hf|]).
    + rewrite Nr in Nb. injection Nb as <- <-. exists pc, p, po, oc, Owned, oo. split; [exact Nc|]. split; [apply nth_old; exact N|]. auto.
    + rewrite (nth_old _ _ _ _ N) in Nb. injection Nb as <- <-. exists pc, p, po, oc, (if m then MutRef else SharedRef), oo. auto.
Qed.
Print Assumptions C47_borrowed_baselines_show_the_same.

(** A contract registers once per baseline: the first time (nobody else having a
    reference to the baseline) it succeeds, the second time the process dies. *)
Theorem C47_register_succeeds_once w m b w1 l w2 : reachable w -> cs_step w (NewBaseline m) = Return (Ref b) w1 ->
  runs w1 l w2 -> (forall p, In p l -> ~ broken p) -> owns w2 b WBase ->
  (forall p, In p l -> p <> Register b /\ forall k, p <> BorrowBaseline b k) ->
  exists c w3, cs_step w2 (Register b) = Return (Ref c) w3 /\ owns w3 c WCon.
Proof.
  intros R E Rn Np O Nl.
  assert (R1 : reachable w1). { eapply reachable_runs; [exact R|eapply runs_return; [exact E|constructor]|]. intros q' [<-|[]]; apply not_broken_new. }
  pose proof (views_old _ R) as V. rewrite new_baseline in E. injection E as <- E. subst w1.
  destruct (base_runs _ _ _ _ _ _ _ Rn R1 Np O (nth_new _ _) (look_new _ _)) as (b' & e' & N & L & _ & _ & B).
  assert (Nr : ~ registered b').
  { intros Rg. destruct (B) as [h Hh]; auto; [|now rewrite con_at_new in Hh]. cbn [ww]. intros j ow Nj.
    destruct (Nat.lt_ge_cases j (length (ww w))) as [Lj|Lj].
    - exfalso. rewrite nth_error_app1 in Nj by exact Lj. apply V in Nj. lia.
    - rewrite nth_error_app2 in Nj by exact Lj. destruct (j - length (ww w)) as [|n] eqn:Q; cbn in Nj; [lia|destruct n; discriminate]. }
  assert (R2 : reachable w2) by (eapply reachable_runs; eauto). pose proof (reachable_winv _ R2) as W2.
  pose proof (hi_base _ (reaches_hinv _ (wi_reach _ W2)) _ _ _ L) as X.
  cbn [cs_step]. rewrite (typed_known _ _ _ _ _ _ N). cbn [wr_own is_shared inner wr_inner step base_at]. rewrite L.
  destruct (register_spec b' Example (ex_inv _ X)) as [[Hc E]|[_ (cs & h & _ & E)]]; rewrite E.
  - exfalso. apply Nr. destruct Hc as (h & cd & Hh & _). exists h. unfold con_at. rewrite Hh. discriminate.
  - unfold new_box, alloc. cbn [wrap]. do 2 eexists. split; [reflexivity|]. eexists. cbn [ww]. apply nth_new.
Qed.
Print Assumptions C47_register_succeeds_once.
Theorem C47_register_twice_crashes w b r w1 l w2 : reachable w -> owns w b WBase -> cs_step w (Register b) = Return r w1 ->
  runs w1 l w2 -> (forall p, In p l -> ~ broken p) -> owns w2 b WBase ->
  cs_step w2 (Register b) = Crash.
Proof.
  intros R (p & N) E Rn Np O. pose proof (reachable_winv _ R) as W. destruct (owned_base _ W _ _ N) as (a & b0 & e0 & -> & L).
  assert (Nbr : ~ broken (Register b)) by (intros (? & ? & ? & ? & ? & ? & ? & ? & ? & ? & ? & Q); discriminate).
  destruct (owned_through _ _ _ _ _ _ _ _ _ R E Nbr Rn Np N (ex_intro _ _ O)) as [R1 N1].
  destruct (base_through _ _ _ _ _ _ _ _ W Nbr E N1 L) as (b1 & e1 & L1 & _ & Rg1).
  destruct (base_runs _ _ _ _ _ _ _ Rn R1 Np O N1 L1) as (b2 & e2 & N2 & L2 & _ & F & _).
  assert (Rg : registered b2) by (apply F, Rg1; eauto).
  assert (R2 : reachable w2) by (eapply reachable_runs; eauto). pose proof (reachable_winv _ R2) as W2.
  pose proof (hi_base _ (reaches_hinv _ (wi_reach _ W2)) _ _ _ L2) as X.
  cbn [cs_step]. rewrite (typed_known _ _ _ _ _ _ N2). cbn [wr_own is_shared inner wr_inner step base_at]. rewrite L2.
  destruct (register_spec b2 Example (ex_inv _ X)) as [[Hc E2]|[Nc _]]; [rewrite E2; reflexivity|].
  exfalso. apply Nc. destruct Rg as [h Hh]. destruct (con_at b2 h) as [cd|] eqn:Q; [|congruence]. exists h, cd. split; [exact Q|]. eapply ex_con; eauto.
Qed.
Print Assumptions C47_register_twice_crashes.

(** Whatever contract id the program gets hold of is the example contract's. *)
Theorem C47_ids_name_the_example w i : reachable w ->
  (forall r w', cs_step w (IdName i) = Return r w' -> r = Name "teleportal.example-ffi-contract" /\ w' = w) /\
  (forall r w', cs_step w (IdVersion i) = Return r w' -> r = Version (1%N, 2%N, 3%N) /\ w' = w).
Proof.
  intros R. pose proof (wi_reach _ (reachable_winv _ R)) as Rh.
  split; intros r w' E; cbn [cs_step] in E; apply use_return in E; destruct E as (p & o & _ & E); apply plain_return in E; destruct E as (r0 & H & E & T & ->);
    destruct (C44_contract_data_names_the_example (wh w) p Rh) as [A B].
  - pose proof (A _ _ E) as Q. subst r0. injection T as <-. split; [reflexivity|]. cbn [step] in E. destruct p; try discriminate.
    destruct (borrowed _ _ _); [|discriminate]. destruct (contract_data_of _ _); try discriminate. injection E as _ <-. destruct w; reflexivity.
  - pose proof (B _ _ E) as Q. subst r0. injection T as <-. split; [reflexivity|]. cbn [step] in E. destruct p; try discriminate.
    destruct (borrowed _ _ _); [|discriminate]. destruct (contract_data_of _ _); try discriminate. injection E as _ <-. destruct w; reflexivity.
Qed.
Print Assumptions C47_ids_name_the_example.

(** ** What is wrong *)
(** Two wrappers for one contract handle are different objects, and C# has no way to
    compare what they stand for. *)
Theorem C47_handles_have_no_identity_refuted w c f : reachable w -> owns w c WCon -> has_accessor f = true ->
  exists h1 h2 s i w1 w2 w3 w4 v, cs_step w (Handle c) = Return (Ref h1) w1 /\ cs_step w1 (States c) = Return (Ref s) w2 /\
    cs_step w2 (Field f s) = Return (Ref i) w3 /\ cs_step w3 (IdContract (exfield_prim f) i) = Return (Ref h2) w4 /\
    stands_for w4 h1 v /\ stands_for w4 h2 v /\ h1 <> h2.
Proof.
  intros R (p & N) Hf. pose proof (reachable_winv _ R) as W. destruct (owned_con _ W _ _ N) as (a & ci & -> & L).
  set (H1 := wh w ++ [Some (CVal (VContractDataHandle (ci_handle ci)))]).
  set (ws1 := ww w ++ [mkWr (WVal TContractDataHandle) (Some (PBox (length (wh w)))) Owned]).
  set (ws2 := ws1 ++ [mkWr WFields (Some (PFields a)) SharedRef]).
  set (H3 := H1 ++ [Some (CSid (exfield_prim f) (mkPid (TPrim (exfield_prim f)) (exfield_idx f) (ci_handle ci)))]).
  set (ws3 := ws2 ++ [mkWr (WSid (exfield_prim f)) (Some (PBox (length H1))) Owned]).
  set (H4 := H3 ++ [Some (CVal (VContractDataHandle (ci_handle ci)))]).
  set (ws4 := ws3 ++ [mkWr (WVal TContractDataHandle) (Some (PBox (length H3))) Owned]).
  assert (L1 : look H1 a = Some (CCon ci)) by (apply look_app_some; exact L).
  exists (length (ww w)), (length ws3), (length ws1), (length ws2), (mkWorld H1 ws1), (mkWorld H1 ws2), (mkWorld H3 ws3), (mkWorld H4 ws4), (VContractDataHandle (ci_handle ci)).
  split. { cbn [cs_step]. rewrite (use_known _ _ _ _ _ _ N). cbn [step contract_at]. rewrite L. reflexivity. }
  split. { cbn [cs_step]. erewrite use_known by (cbn [ww]; apply nth_old; exact N). cbn [step contract_at wh ww]. rewrite L1. reflexivity. }
  split. { cbn [cs_step]. rewrite Hf. cbn [negb]. erewrite use_known by (cbn [ww]; apply nth_new). cbn [step contract_at wh ww]. rewrite L1. reflexivity. }
  split. { cbn [cs_step]. erewrite use_known by (cbn [ww]; apply nth_new). cbn [step sid_at wh ww]. unfold H3 at 1. rewrite look_new, prim_eqb_refl. reflexivity. }
  split; [|split].
  - do 3 eexists. cbn [ww wh]. split; [unfold ws4, ws3, ws2; do 3 apply nth_old; apply nth_new|]. apply loads_box. unfold H4, H3. do 2 apply look_app_some. apply look_new.
  - do 3 eexists. cbn [ww wh]. split; [apply nth_new|]. apply loads_box. apply look_new.
  - unfold ws3, ws2, ws1. rewrite !app_length. cbn. lia.
Qed.
Print Assumptions C47_handles_have_no_identity_refuted.

(** [ObjectCreate] passes two arguments too few: whatever happens to be there instead,
    a program that uses this library alone has undefined behaviour. *)
Theorem C47_object_create_is_undefined_refuted l w : runs empty_world l w -> (forall h, ~ In (ForeignHandle h) l) ->
  forall c b u0 u1 i0 i1 f0 f1 s j1 j2,
    owns w c WCon -> owns w s (WVal TString) -> (exists p o, nth_error (ww w) b = Some (mkWr WBase (Some p) o)) -> ~ shared w b ->
    cs_step w (ObjectCreate c b u0 u1 i0 i1 f0 f1 s j1 j2) = Undefined.
Proof.
  intros Rn Nf.
  assert (G : forall w l w', runs w l w' -> (forall h, ~ In (ForeignHandle h) l) -> winv w ->
     (exists ss, session ss (wh w) /\ forall o r, ~ In (Other__object_handle o, r) ss) ->
     winv w' /\ exists ss, session ss (wh w') /\ forall o r, ~ In (Other__object_handle o, r) ss).
  { clear. induction 1 as [w|w p r w1 l w2 E Rn IH|w p x w1 l w2 E Rn IH]; intros Nf W (ss & Se & No); [eauto| |].
    - assert (Nbr : ~ broken p).
      { intros (c & b & u0 & u1 & i0 & i1 & f0 & f1 & s & j1 & j2 & ->). cbn [cs_step] in E.
        apply typed_return in E. destruct E as (p1 & o1 & N1 & E). apply typed_return in E. destruct E as (p2 & o2 & N2 & E). apply typed_return in E. destruct E as (p3 & o3 & N3 & E).
        cbn [wr_own] in E. destruct (is_shared o2); [discriminate|]. destruct (negb (is_owned o3)); [discriminate|].
        apply inner_return in E. destruct E as (q1 & _ & E). apply inner_return in E. destruct E as (q2 & _ & E). apply inner_return in E. destruct E as (q3 & _ & E).
        rewrite (C44_no_first_object_refuted _ _ Se No) in E. discriminate. }
      destruct (step_did _ _ _ _ W Nbr E) as [W1 _ C]. apply IH; [intros h Q; eapply Nf; right; exact Q|exact W1|].
      destruct C as [C|(c & r0 & C & Og & _)]; [rewrite C; eauto|]. exists ((c, r0) :: ss). split; [econstructor; eauto|].
      intros o r1 [Q|Q]; [|eapply No; exact Q]. injection Q as -> _. cbn [origin] in Og. subst p. eapply Nf; left; reflexivity.
    - apply throw_same in E. subst w1. apply IH; eauto. intros h Q; eapply Nf; right; exact Q. }
  destruct (G _ _ _ Rn Nf winv_empty) as (_ & ss & Se & No); [exists []; split; [constructor|intros o r []]|].
  intros c b u0 u1 i0 i1 f0 f1 s j1 j2 (pc & Nc) (ps & Ns) (pb & ob & Nb) Sh. cbn [cs_step].
  rewrite (typed_known _ _ _ _ _ _ Nc), (typed_known _ _ _ _ _ _ Nb), (typed_known _ _ _ _ _ _ Ns). cbn [wr_own is_owned negb].
  destruct (is_shared ob) eqn:Q; [exfalso; apply Sh; destruct ob; try discriminate; unfold shared; eauto|].
  cbn [inner wr_inner]. rewrite (C44_no_first_object_refuted _ _ Se No). reflexivity.
Qed.
Print Assumptions C47_object_create_is_undefined_refuted.

(** The setter does not check how its state was obtained: writing through
    [baseline.State(h)], which only lends the state for reading, is undefined. *)
Theorem C47_writing_a_shared_state_is_undefined_refuted w t b h s w1 x : reachable w ->
  cs_step w (GetState t b h) = Return (Ref s) w1 -> owns w1 x (WVal t) -> cs_step w1 (SetStateValue t s x) = Undefined.
Proof.
  intros R E (p & N). cbn [cs_step] in E. destruct (negb (bindable t)); [discriminate|].
  apply typed_return in E. destruct E as (p1 & o1 & N1 & E). apply typed_return in E. destruct E as (p2 & o2 & N2 & E).
  apply inner_return in E. destruct E as (q1 & _ & E). apply inner_return in E. destruct E as (q2 & _ & E).
  apply wrap_return in E. destruct E as (q & H & E & Q & ->). injection Q as ->. cbn [step] in E.
  destruct (base_at (wh w) q1) as [[[a bs] e]|]; [|discriminate]. destruct (sh_at (wh w) t q2); [|discriminate]. destruct (state_get _ _ _); try discriminate.
  injection E as <- <-. cbn [cs_step]. erewrite typed_known by (cbn [ww]; apply nth_new). rewrite (typed_known _ _ _ _ _ _ N). cbn [inner wr_inner step wh ww].
  destruct (negb _); [reflexivity|]. destruct (owned_val _ _ _) as [[? ?]|]; reflexivity.
Qed.
Print Assumptions C47_writing_a_shared_state_is_undefined_refuted.

(** And a state obtained before the baseline is next borrowed mutably dangles: reading
    it is undefined, although its wrapper looks live. *)
Theorem C47_old_views_dangle_refuted w t b h s w1 t2 b2 h2 s2 w2 pb ob : reachable w -> 
  cs_step w (GetState t b h) = Return (Ref s) w1 -> cs_step w1 (GetStateMut t2 b2 h2) = Return (Ref s2) w2 ->
  nth_error (ww w) b = Some (mkWr WBase (Some pb) ob) -> (exists o2, nth_error (ww w) b2 = Some (mkWr WBase (Some pb) o2)) ->
  ~ gone w2 s /\ cs_step w2 (StateValue t s) = Undefined.
Proof.
  intros R E E2 Nb (ob2 & Nb2). cbn [cs_step] in E. destruct (negb (bindable t)); [discriminate|].
  apply typed_return in E. destruct E as (p1 & o1 & N1 & E). apply typed_return in E. destruct E as (p2 & o2 & N2 & E).
  apply inner_return in E. destruct E as (q1 & Q1 & E). apply inner_return in E. destruct E as (q2 & _ & E).
  apply wrap_return in E. destruct E as (q & H & E & Q & ->). injection Q as ->. cbn [step wr_inner] in E, Q1. subst p1. rewrite Nb in N1. injection N1 as <- <-.
  destruct (base_at (wh w) pb) as [[[a bs] e]|] eqn:B; [|discriminate]. destruct (sh_at (wh w) t q2) as [hh|]; [|discriminate]. destruct (state_get _ _ _); try discriminate.
  injection E as <- <-. apply base_at_some in B. destruct B as [-> L].
  cbn [cs_step] in E2. destruct (negb (mutable t2)); [discriminate|].
  apply typed_return in E2. destruct E2 as (p3 & o3 & N3 & E2). apply typed_return in E2. destruct E2 as (p4 & o4 & N4 & E2). cbn [wr_own] in E2. destruct (is_shared o3); [discriminate|].
  apply inner_return in E2. destruct E2 as (q3 & Q3 & E2). apply inner_return in E2. destruct E2 as (q4 & _ & E2). cbn [wr_inner] in Q3. subst p3.
  cbn [ww] in N3. rewrite (nth_old _ _ _ _ Nb2) in N3. injection N3 as <- <-.
  apply wrap_return in E2. destruct E2 as (q' & H' & E2 & Q & ->). injection Q as ->. cbn [step base_at wh] in E2. rewrite L in E2.
  destruct (sh_at (wh w) t2 q4) as [h4|]; [|discriminate]. destruct (state_get bs (TPrim t2) h4); try discriminate. injection E2 as <- <-.
  assert (Ns : nth_error ((ww w ++ [mkWr (WSt t) (Some (PState a e false t hh)) SharedRef]) ++ [mkWr (WSt t2) (Some (PState a (S e) true t2 h4)) MutRef]) (length (ww w)) =
     Some (mkWr (WSt t) (Some (PState a e false t hh)) SharedRef)) by (apply nth_old, nth_new).
  split.
  - intros (k & o & G). cbn [ww] in G. rewrite Ns in G. discriminate.
  - cbn [cs_step]. erewrite use_known by (cbn [ww]; exact Ns). cbn [step state_ok wh ww]. unfold borrowed. rewrite (look_put _ _ _ _ _ L), Nat.eqb_refl.
    assert (Ne : Nat.eqb e (S e) = false) by (apply Nat.eqb_neq; lia). rewrite Ne. rewrite andb_false_r. reflexivity.
Qed.
Print Assumptions C47_old_views_dangle_refuted.

(** A borrowed baseline outlives its owner: using it afterwards is undefined. *)
Theorem C47_borrows_outlive_the_owner_refuted w b m r w1 w2 : reachable w -> owns w b WBase ->
  cs_step w (BorrowBaseline b m) = Return (Ref r) w1 -> cs_step w1 (Dispose b) = Return Nothing w2 ->
  ~ gone w2 r /\ cs_step w2 (IsMain r) = Undefined.
Proof.
  intros R (p & N) E E2. pose proof (reachable_winv _ R) as W. destruct (owned_base _ W _ _ N) as (a & bs & e & -> & L).
  cbn [cs_step] in E. rewrite (use_known _ _ _ _ _ _ N) in E. injection E as <- <-.
  cbn [cs_step ww wh] in E2. rewrite (nth_old _ _ _ _ N) in E2. cbn [wr_own wr_inner wr_kind step base_at] in E2. rewrite L in E2. injection E2 as <-.
  assert (D : b <> length (ww w)). { assert (b < length (ww w)) by (apply nth_error_Some; congruence). lia. }
  assert (Nr : nth_error (forget (ww w ++ [mkWr WBase (Some (PBox a)) (if m then MutRef else SharedRef)]) b) (length (ww w)) = Some (mkWr WBase (Some (PBox a)) (if m then MutRef else SharedRef))).
  { rewrite forget_nth. destruct (Nat.eqb_spec b (length (ww w))); [contradiction|]. apply nth_new. }
  split.
  - intros (k & o & G). cbn [ww] in G. rewrite Nr in G. discriminate.
  - cbn [cs_step]. erewrite use_known by (cbn [ww]; exact Nr). cbn [step base_at wh ww]. rewrite look_free, Nat.eqb_refl. reflexivity.
Qed.
Print Assumptions C47_borrows_outlive_the_owner_refuted.

(** ** Disposing *)
Lemma nth_ext_error {A} (l : list A) : forall l', (forall i, nth_error l i = nth_error l' i) -> l = l'.
Proof.
  induction l as [|x l IH]; intros [|y l'] E.
  - reflexivity.
  - specialize (E 0). discriminate.
  - specialize (E 0). discriminate.
  - pose proof (E 0) as E0. cbn in E0. injection E0 as ->. f_equal. apply IH. intros i. apply (E (S i)).
Qed.
(** [Dispose] always returns, touches no other wrapper, and a second one does nothing. *)
Theorem C47_dispose_once w x : reachable w -> x < length (ww w) ->
  exists w1, cs_step w (Dispose x) = Return Nothing w1 /\ gone w1 x /\ cs_step w1 (Dispose x) = Return Nothing w1 /\
    forall i, i <> x -> nth_error (ww w1) i = nth_error (ww w) i.
Proof.
  intros R Lx. pose proof (reachable_winv _ R) as W. destruct (nth_error (ww w) x) as [[k p o]|] eqn:N; [|apply nth_error_None in N; lia].
  assert (E : exists H, cs_step w (Dispose x) = Return Nothing (mkWorld H (forget (ww w) x))).
  { cbn [cs_step]. rewrite N. cbn [wr_own wr_inner wr_kind]. destruct o; try (eexists; reflexivity). destruct p as [p|]; [|eexists; reflexivity].
    destruct (wi_own _ W _ _ _ N) as (a & c & -> & L & K). destruct c; cbn [cell_kind] in K; try discriminate K; injection K as <-; cbn [step base_at]; rewrite L; eexists; reflexivity. }
  destruct E as (H & E). exists (mkWorld H (forget (ww w) x)). split; [exact E|].
  assert (Nx : nth_error (forget (ww w) x) x = Some (mkWr k None o)) by (rewrite forget_nth, Nat.eqb_refl, N; reflexivity).
  split; [exists k, o; exact Nx|]. split.
  - cbn [cs_step ww wh]. rewrite Nx. cbn [wr_own wr_inner wr_kind].
    assert (Fx : forget (forget (ww w) x) x = forget (ww w) x).
    { apply nth_ext_error. intros j. rewrite (forget_nth (forget (ww w) x)). destruct (Nat.eqb_spec x j) as [<-|]; [|reflexivity]. rewrite Nx. reflexivity. }
    rewrite Fx. destruct o; reflexivity.
  - intros i D. cbn [ww]. rewrite forget_nth. destruct (Nat.eqb_spec x i); [congruence|reflexivity].
Qed.
Print Assumptions C47_dispose_once.

(** ** Were [ObjectCreate] to pass all its arguments *)
(** ... the object would show them; the new wrapper owns its handle, and the three
    wrappers given away are gone. *)
Theorem C47_fixed_create_shows_its_arguments w c b u0 u1 i0 i1 f0 f1 x y z s r w' : reachable w -> holds w x (VString s) ->
  cs_step w (FixedObjectCreate c b u0 u1 i0 i1 f0 f1 x y z) = Return r w' ->
  exists o, r = Ref o /\ owns w' o (WVal TObjectHandle) /\ nth_error (ww w) o = None /\ gone w' x /\ gone w' y /\ gone w' z /\
    sees w' c b o U8_0 (VU8 u0) /\ sees w' c b o U8_1 (VU8 u1) /\ sees w' c b o I8_0 (VI8 i0) /\ sees w' c b o I8_1 (VI8 i1) /\
    sees w' c b o F32_0 (VF32 f0) /\ sees w' c b o F32_1 (VF32 f1) /\ sees w' c b o Str_0 (VString s).
Proof.
  intros R Hx E. pose proof (reachable_winv _ R) as W. destruct (holds_loads _ _ _ Hx) as (tx & px & ox & Nx & _ & Ld).
  cbn [cs_step] in E.
  apply typed_return in E. destruct E as (p1 & o1 & N1 & E). apply typed_return in E. destruct E as (p2 & o2 & N2 & E). apply typed_return in E. destruct E as (p3 & o3 & N3 & E).
  apply typed_return in E. destruct E as (p4 & o4 & N4 & E). apply typed_return in E. destruct E as (p5 & o5 & N5 & E). cbn [wr_own] in E.
  destruct (is_shared o2); [discriminate|]. destruct (is_owned o3 && is_owned o4 && is_owned o5)%bool eqn:Ow; cbn [negb] in E; [|discriminate].
  apply andb_prop in Ow. destruct Ow as [Ow Ow5]. apply andb_prop in Ow. destruct Ow as [Ow3 Ow4].
  destruct o3; try discriminate. destruct o4; try discriminate. destruct o5; try discriminate.
  apply inner_return in E. destruct E as (q1 & Q1 & E). apply inner_return in E. destruct E as (q2 & Q2 & E). apply inner_return in E. destruct E as (q3 & Q3 & E).
  apply inner_return in E. destruct E as (q4 & Q4 & E). apply inner_return in E. destruct E as (q5 & Q5 & E). cbn [wr_inner] in Q1, Q2, Q3, Q4, Q5. subst p1 p2 p3 p4 p5.
  apply wrap_return in E. destruct E as (q & H & E & -> & ->). rewrite N3 in Nx. injection Nx as <- <- <-.
  destruct (owned_value _ W _ _ _ N4) as (a4 & v4 & -> & L4 & _). destruct (owned_value _ W _ _ _ N5) as (a5 & v5 & -> & L5 & _).
  pose proof (C44_created_object_shows_its_arguments _ _ _ _ _ _ _ _ _ _ _ _ _ _ _ _ _ (wi_reach _ W) Ld (proj2 (loads_box _ _ _) L4) (proj2 (loads_box _ _ _) L5) E) as Sh.
  set (ws := forget (forget (forget (ww w) x) y) z) in *.
  assert (Len : length ws = length (ww w)) by (unfold ws; now rewrite !forget_length).
  assert (Kp : forall i k p o, nth_error (ww w) i = Some (mkWr k p o) -> (forall t, k <> WVal t) -> nth_error (ws ++ [mkWr (WVal TObjectHandle) (Some q) Owned]) i = Some (mkWr k p o)).
  { intros i k p o N D. apply nth_old. unfold ws. rewrite !forget_nth.
    destruct (Nat.eqb_spec z i); [subst i; rewrite N in N5; injection N5 as -> _; exfalso; eapply D; reflexivity|].
    destruct (Nat.eqb_spec y i); [subst i; rewrite N in N4; injection N4 as -> _; exfalso; eapply D; reflexivity|].
    destruct (Nat.eqb_spec x i); [subst i; rewrite N in N3; injection N3 as -> _; exfalso; eapply D; reflexivity|]. exact N. }
  assert (Gn : forall i k p o, nth_error (ww w) i = Some (mkWr k p o) -> i = x \/ i = y \/ i = z -> gone (mkWorld H (ws ++ [mkWr (WVal TObjectHandle) (Some q) Owned])) i).
  { intros i k p o N D. exists k, o. cbn [ww]. apply nth_old. unfold ws. rewrite !forget_nth, N.
    destruct (Nat.eqb_spec z i), (Nat.eqb_spec y i), (Nat.eqb_spec x i); cbn; try reflexivity. exfalso. intuition congruence. }
  exists (length ws). split; [reflexivity|]. split; [exists q; apply nth_new|]. split; [apply nth_error_None; lia|].
  split; [eapply Gn; eauto|]. split; [eapply Gn; eauto|]. split; [eapply Gn; eauto|].
  assert (Se : forall f v, has_accessor f = true -> shows H q1 q2 q f v -> sees (mkWorld H (ws ++ [mkWr (WVal TObjectHandle) (Some q) Owned])) c b (length ws) f v).
  { intros f v Hf S. apply sees_shows. split; [exact Hf|]. exists q1, q2, q, o1, o2, Owned. cbn [ww wh].
    split; [apply Kp; [exact N1|discriminate]|]. split; [apply Kp; [exact N2|discriminate]|]. split; [apply nth_new|exact S]. }
  destruct Sh as (S1 & S2 & S3 & S4 & S5 & S6 & S7 & _). repeat split; apply Se; auto.
Qed.
Print Assumptions C47_fixed_create_shows_its_arguments.

(** A concrete program, with everything the theorems above ask for. *)
Fixpoint perform (l : list op) (w : world) : option world :=
  match l with
  | [] => Some w
  | o :: l => match cs_step w o with Return _ w1 => perform l w1 | Throw _ w1 => perform l w1 | _ => None end
  end.
Lemma perform_runs l : forall w w', perform l w = Some w' -> runs w l w'.
Proof.
  induction l as [|o l IH]; cbn [perform]; intros w w' E; [injection E as ->; constructor|].
  destruct (cs_step w o) eqn:Q; try discriminate; [eapply runs_return|eapply runs_throw]; eauto.
Qed.
Definition cs_program : list op :=
  [ NewBaseline true;                                                 (* 0 *)
    Register 0;                                                       (* 1 *)
    NewBox (VString "");                                              (* throws *)
    NewBox (VString "foobar");                                        (* 2 *)
    ForeignHandle (mkIndex 0 0);                                      (* 3 *)
    Handle 1;                                                         (* 4 *)
    FixedObjectCreate 1 0 200 255 (-128) 127 0 1 2 3 4;               (* 5 *)
    NewBox (VU8 42);                                                  (* 6 *)
    NewBox (VU8 7);                                                   (* 7 *)
    NewState TU8 7;                                                   (* 8 *)
    NewBox (VU8 9);                                                   (* 9 *)
    NewBaseline false;                                                (* 10 *)
    BorrowBaseline 0 false;                                           (* 11 *)
    Handle 1; GetContractData 0 12; DataId 13                         (* 12 13 14 *) ].
Definition ret_of (a : answer) : option cret := match a with Return r _ => Some r | _ => None end.
Lemma ret_sees w c b o f v : ret_of (cs_read w c b o f) = Some (Val v) -> sees w c b o f v.
Proof. unfold ret_of, sees. destruct (cs_read w c b o f); try discriminate. intros E; injection E as ->; eauto. Qed.
Definition own_kind (w : world) (i : nat) : option wkind :=
  match nth_error (ww w) i with Some (mkWr k (Some _) Owned) => Some k | _ => None end.
Lemma own_kind_owns w i k : own_kind w i = Some k -> owns w i k.
Proof. unfold own_kind, owns. destruct (nth_error (ww w) i) as [[k' [p|] []]|]; try discriminate. intros E; injection E as ->. eauto. Qed.
Definition held_val (w : world) (i : nat) : option dynprim :=
  match cs_step w (BoxValue i) with Return (Val v) w' => if Nat.eqb (length (wh w')) (length (wh w)) then Some v else None | _ => None end.
Lemma held_val_holds w i v : held_val w i = Some v -> holds w i v.
Proof.
  unfold held_val, holds. destruct (cs_step w (BoxValue i)) as [r w'| | | |] eqn:E; try discriminate. destruct r; try discriminate.
  destruct (Nat.eqb _ _); [|discriminate]. intros Q. injection Q as ->. f_equal. clear - E. cbn [cs_step] in E.
  destruct (nth_error (ww w) i) as [[k p o]|]; [|discriminate]. destruct k; try discriminate. destruct (has_value t); [|discriminate].
  apply inner_return in E. destruct E as (q & _ & E). apply plain_return in E. destruct E as (r0 & H & E & _ & ->). cbn [step] in E.
  destruct (val_at (wh w) q); [|discriminate]. injection E as _ <-. destruct w; reflexivity.
Qed.

(** Which methods there are: binding and reading only for u8, i8, i16, f32, u64,
    strings and object handles, writing for the same without object handles.  A call
    with arguments of the right classes is a C# program exactly for those. *)
Theorem C47_methods_exist_for_these_types_only w t b bx :
  nth_error (ww w) b = Some bx -> wr_kind bx = WBase ->
  (forall i o ix ox, nth_error (ww w) i = Some ix -> wr_kind ix = WSid t ->
     nth_error (ww w) o = Some ox -> wr_kind ox = WVal TObjectHandle ->
     (cs_step w (BindState t b i o) <> Illtyped <-> In t [TU8; TI8; TI16; TF32; TU64; TString; TObjectHandle])) /\
  (forall h hx, nth_error (ww w) h = Some hx -> wr_kind hx = WSh t ->
     (cs_step w (GetState t b h) <> Illtyped <-> In t [TU8; TI8; TI16; TF32; TU64; TString; TObjectHandle]) /\
     (cs_step w (GetStateMut t b h) <> Illtyped <-> In t [TU8; TI8; TI16; TF32; TU64; TString])).
Proof.
  intros Nb Kb.
  assert (W : forall k own ws r, wrap k own ws r <> Illtyped) by (intros k own ws [[]| |]; discriminate).
  assert (E : forall k, wkind_eqb k k = true) by (intros []; cbn; auto using prim_eqb_refl).
  assert (A : bindable t = true <-> In t [TU8; TI8; TI16; TF32; TU64; TString; TObjectHandle])
    by (destruct t; cbn; intuition discriminate).
  assert (B : mutable t = true <-> In t [TU8; TI8; TI16; TF32; TU64; TString])
    by (destruct t; cbn; intuition discriminate).
  split; [intros i o ix ox Ni Ki No Ko|intros h hx Nh Kh; split];
    first [rewrite <- A|rewrite <- B]; cbn [cs_step]; unfold typed, inner; rewrite Nb, ?Ni, ?No, ?Nh, Kb, ?Ki, ?Ko, ?Kh, !E.
  - destruct (bindable t); cbn [negb]; [|split; congruence]. split; [reflexivity|]. intros _.
    destruct (wr_inner bx), (wr_inner ix), (wr_inner ox); first [apply W|discriminate].
  - destruct (bindable t); cbn [negb]; [|split; congruence]. split; [reflexivity|]. intros _.
    destruct (wr_inner bx), (wr_inner hx); first [apply W|discriminate].
  - destruct (mutable t); cbn [negb]; [|split; congruence]. split; [reflexivity|]. intros _.
    destruct (is_shared (wr_own bx)); [discriminate|]. destruct (wr_inner bx), (wr_inner hx); first [apply W|discriminate].
Qed.
Print Assumptions C47_methods_exist_for_these_types_only.

Theorem C47_example : exists w, runs empty_world cs_program w /\ reachable w /\
  owns w 1 WCon /\ owns w 0 WBase /\ owns w 5 (WVal TObjectHandle) /\ owns w 10 WBase /\ shared w 11 /\ gone w 2 /\
  sees w 1 0 5 U8_0 (VU8 200) /\ sees w 1 0 5 Str_0 (VString "foobar") /\ sees w 1 11 5 I8_0 (VI8 (-128)) /\
  owns w 6 (WVal TU8) /\ holds w 6 (VU8 42) /\ owns w 9 (WVal TU8) /\ holds w 9 (VU8 9) /\
  owns w 8 (WSt TU8) /\ reads w TU8 8 (VU8 7) /\
  cs_step w (IdName 14) = Return (Name "teleportal.example-ffi-contract") w /\
  cs_step w (Register 0) = Crash /\ cs_step w (Register 11) = Throw Mutability w /\
  cs_step w (NewState TString 2) = Throw InvalidOperation w /\ cs_step w (ObjectRemove 0 5) = Crash /\
  cs_step w (GetContractData 0 2) = Illtyped /\ cs_step w (GetContractData 0 4) = Throw ArgumentNull w.
Proof.
  assert (A : match perform cs_program empty_world with
              | Some w =>
                  map (own_kind w) [1; 0; 5; 10; 6; 9; 8] = map Some [WCon; WBase; WVal TObjectHandle; WBase; WVal TU8; WVal TU8; WSt TU8] /\
                  map (held_val w) [6; 9] = [Some (VU8 42); Some (VU8 9)] /\
                  ret_of (cs_read w 1 0 5 U8_0) = Some (Val (VU8 200)) /\ ret_of (cs_read w 1 0 5 Str_0) = Some (Val (VString "foobar")) /\
                  ret_of (cs_read w 1 11 5 I8_0) = Some (Val (VI8 (-128))) /\ ret_of (cs_value w TU8 8) = Some (Val (VU8 7)) /\
                  nth_error (ww w) 11 = Some (mkWr WBase (Some (PBox 0)) SharedRef) /\ nth_error (ww w) 2 = Some (mkWr (WVal TString) None Owned) /\
                  cs_step w (IdName 14) = Return (Name "teleportal.example-ffi-contract") w /\
                  cs_step w (Register 0) = Crash /\ cs_step w (Register 11) = Throw Mutability w /\
                  cs_step w (NewState TString 2) = Throw InvalidOperation w /\ cs_step w (ObjectRemove 0 5) = Crash /\
                  cs_step w (GetContractData 0 2) = Illtyped /\ cs_step w (GetContractData 0 4) = Throw ArgumentNull w
              | None => False
              end) by (vm_compute; repeat split; reflexivity).
  destruct (perform cs_program empty_world) as [w|] eqn:E; [|contradiction]. apply perform_runs in E. exists w.
  destruct A as (A1 & A2 & A3 & A4 & A5 & A6 & A7 & A8 & Rest). cbn [map] in A1, A2.
  injection A1 as K1 K2 K3 K4 K5 K6 K7. injection A2 as V1 V2.
  split; [exact E|]. split.
  { exists cs_program. split; [exact E|]. intros o Hin. cbn in Hin. intros (? & ? & ? & ? & ? & ? & ? & ? & ? & ? & ? & ->). intuition discriminate. }
  repeat (split; [first [apply own_kind_owns; assumption | apply ret_sees; assumption | apply held_val_holds; assumption
    | unfold shared; eauto; fail | unfold gone; eauto; fail
    | unfold reads; unfold ret_of in A6; destruct (cs_value w TU8 8); try discriminate; injection A6 as ->; eexists; reflexivity ]|]).
  exact Rest.
Qed.
Print Assumptions C47_example.
