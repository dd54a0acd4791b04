(** C63: calls of [serialize] that fail, and a program that goes on after one. *)
From Verif Require Import BaseProofs PropertiesTags PropertiesBaseline SerProofs PropertiesSer PropertiesRound.
Import Coq.Strings.String.StringSyntax.
Open Scope string_scope.
Open Scope list_scope.
Open Scope nat_scope.

(** ** Specification *)

(** A program that calls [serialize] for each contract in turn and drops the [Err]s
    (serializer/mod.rs:47: [&mut self] is still usable after an [Err]).  A panic ends it. *)
Fixpoint serialize_each (b : baseline) (sr : ser) (l : list (contract_inst * list index))
  : list (outcome unit) * ser :=
  match l with
  | [] => ([], sr)
  | (c, ord) :: t =>
      match serialize b sr c ord with
      | (Panic, sr1) => ([Panic], sr1)
      | (r, sr1) => let (rs, sr2) := serialize_each b sr1 t in (r :: rs, sr2)
      end
  end.

(** What may be passed: any handle that is not live, or a live contract with its
    registered type and an iteration order of its object set.  A contract without
    fields must not list removed objects (they are written: C33). *)
Definition target (b : baseline) (s : rstate) (c : contract_inst) (ord : list index) : Prop :=
  con_at b (ci_handle c) = None \/
  (rs_con s (ci_handle c) = Some (ci_ty c) /\
   (exists cd, con_at b (ci_handle c) = Some cd /\ Permutation ord (cd_objects cd)) /\
   (ct_states (ci_ty c) = [] -> forall o, In o ord -> obj_at b o <> None)).
Definition attempt (b : baseline) (s : rstate) (l : list (contract_inst * list index)) : Prop :=
  (forall c ord, In (c, ord) l -> target b s c ord) /\ NoDup (map (fun p => ci_handle (fst p)) l).

Definition live_contract (b : baseline) (c : contract_inst) : bool :=
  match con_at b (ci_handle c) with Some _ => true | None => false end.
Definition live_object (b : baseline) (o : index) : bool :=
  match obj_at b o with Some _ => true | None => false end.
Definition is_vector (t : ptype) : bool := match t with TVec _ => true | TPrim _ => false end.
Definition has_vector (c : contract_inst) : bool := existsb is_vector (ct_states (ci_ty c)).

(** The documented errors. *)
Definition answer (b : baseline) (c : contract_inst) (ord : list index) : outcome unit :=
  if negb (live_contract b c) then Err ENoContractForHandle
  else if has_vector c then Err EVectorsUnsupported
  else if forallb (live_object b) ord then Ok tt
  else Err EBindFailed.

(** What stays behind: of a contract that is live and has no vector fields, the
    objects before the first removed one. *)
Fixpoint up_to_removed (b : baseline) (ord : list index) : list index :=
  match ord with
  | [] => []
  | o :: t => if live_object b o then o :: up_to_removed b t else []
  end.
Definition entered (b : baseline) (c : contract_inst) : bool := live_contract b c && negb (has_vector c).
Definition kept (b : baseline) (l : list (contract_inst * list index)) : list (contract_inst * list index) :=
  map (fun p => (fst p, up_to_removed b (snd p))) (filter (fun p => entered b (fst p)) l).

(** The 65536th contract panics (C33). *)
Definition full (sr : ser) : Prop := (N.of_nat (S (length (sr_contracts sr))) mod 65536 = 0)%N.

(** ** Proofs *)
Lemma has_vector_spec c : has_vector c = false <-> no_vec (ci_ty c).
Proof.
  unfold has_vector, no_vec. split.
  - intros E p Hin. assert (Hx : existsb is_vector (ct_states (ci_ty c)) = true) by (apply existsb_exists; exists (TVec p); auto). congruence.
  - intros H. destruct (existsb is_vector (ct_states (ci_ty c))) eqn:E; auto. apply existsb_exists in E. destruct E as [[p|p] [Hin Hp]]; [|discriminate].
    exfalso. exact (H p Hin).
Qed.
Lemma up_incl b ord : incl (up_to_removed b ord) ord.
Proof.
  induction ord as [|o ord IH]; cbn; [apply incl_refl|]. destruct (live_object b o); [|intros x []].
  intros x [<-|Hx]; [left; auto|right; auto].
Qed.
Lemma up_live b ord o : In o (up_to_removed b ord) -> obj_at b o <> None.
Proof.
  induction ord as [|x ord IH]; cbn; [tauto|]. unfold live_object. destruct (obj_at b x) as [ob|] eqn:E; [|intros []].
  intros [<-|Hx]; [congruence|auto].
Qed.
Lemma up_nodup b ord : NoDup ord -> NoDup (up_to_removed b ord).
Proof.
  induction 1 as [|o ord Ho Hn IH]; cbn; [constructor|]. destruct (live_object b o); [|constructor].
  constructor; auto. intros Hx. exact (Ho (up_incl b ord _ Hx)).
Qed.
Lemma up_all b ord : forallb (live_object b) ord = true -> up_to_removed b ord = ord.
Proof. induction ord as [|o ord IH]; cbn; auto. intros E. apply andb_prop in E. destruct E as [-> E]. f_equal. auto. Qed.
Lemma ser_types_vec ts : existsb is_vector ts = true -> ser_types ts = Err EVectorsUnsupported.
Proof.
  induction ts as [|[p|p] ts IH]; cbn; try discriminate; auto. intros E. rewrite (IH E). reflexivity.
Qed.
Lemma states_first C h : ct_states C <> [] -> exists id t, state_ids C h = id :: t.
Proof.
  intros H. destruct (state_ids C h) as [|id t] eqn:E; [|eauto]. exfalso. pose proof (state_ids_nth C h 0) as Hn.
  rewrite E in Hn. destruct (ct_states C); [auto|discriminate].
Qed.
Lemma ser_object_dead b c cidx sr o : ct_states (ci_ty c) <> [] -> obj_at b o = None ->
  ser_object b c cidx sr o = (Err EBindFailed, sr).
Proof.
  intros Hn Ho. destruct (states_first _ (ci_handle c) Hn) as [id [t E]]. unfold ser_object. rewrite E. cbn [ser_states].
  unfold ser_state, bind_state. unfold obj_at in Ho. rewrite Ho. reflexivity.
Qed.
Lemma ser_objects_stop b c cidx : forall ps sr ord, Forall (read_object b c) ps -> map fst ps = up_to_removed b ord ->
  (ct_states (ci_ty c) = [] -> forall o, In o ord -> obj_at b o <> None) ->
  ser_objects b c cidx sr ord =
    ((if forallb (live_object b) ord then Ok tt else Err EBindFailed), fold_left (add_object cidx) ps sr).
Proof.
  intros ps sr ord. revert ps sr. induction ord as [|o ord IH]; intros ps sr Hps Em Hne; cbn [up_to_removed] in Em.
  - apply map_eq_nil in Em. subst ps. reflexivity.
  - cbn [ser_objects forallb]. destruct (live_object b o) eqn:El.
    + destruct ps as [|p ps]; [discriminate|]. cbn in Em. injection Em as <- Em. inversion Hps as [|x y H1 H2]; subst x y.
      rewrite (ser_object_ok _ _ _ _ _ H1). cbn [fold_left andb]. apply IH; auto. intros E x Hx. apply Hne; [auto|right; auto].
    + apply map_eq_nil in Em. subst ps. cbn [andb fold_left]. unfold live_object in El.
      destruct (obj_at b o) as [ob|] eqn:Eo; [discriminate|]. rewrite ser_object_dead; auto.
      intros E. exact (Hne E o (or_introl eq_refl) Eo).
Qed.

Lemma adds_contracts cidx : forall ps x, sr_contracts (fold_left (add_object cidx) ps x) = sr_contracts x.
Proof.
  induction ps as [|p ps IH]; intros x; cbn [fold_left]; auto. rewrite IH. unfold add_object. cbn [sr_contracts].
  destruct (add_fields_frame (snd p) x) as [G1 _]. exact G1.
Qed.

Lemma adds_objects cidx : forall ps x, exists objs,
  sr_objects (fold_left (add_object cidx) ps x) = sr_objects x ++ objs /\ length objs = length ps.
Proof.
  induction ps as [|p ps IH]; intros x; cbn [fold_left]; [exists []; rewrite app_nil_r; auto|].
  destruct (IH (add_object cidx x p)) as [objs [E1 E2]]. rewrite E1. unfold add_object. cbn [sr_objects].
  destruct (add_fields_frame (snd p) x) as [_ [G2 _]]. rewrite G2, <- app_assoc. eexists. split; [reflexivity|]. cbn. congruence.
Qed.

Section Fail.
Variables (b : baseline) (s : rstate) (fs fc : index -> list index).
Hypothesis Hr : rrel b s fs fc.

Lemma target_part c ord : target b s c ord -> entered b c = true ->
  sel_ok b s (c, up_to_removed b ord).
Proof.
  intros Ht He. apply andb_prop in He. destruct He as [H1 H2]. unfold live_contract in H1.
  destruct Ht as [E|[E1 [[cd [E2 Hp]] _]]]; [rewrite E in H1; discriminate|]. split; [exact E1|]. split.
  - exists cd. split; [exact E2|]. cbn. split.
    + intros o Ho. eapply Permutation_in; [exact Hp|]. eapply up_incl; eauto.
    + apply up_nodup. eapply Permutation_NoDup; [apply Permutation_sym; exact Hp|]. exact (bi_nodup _ (rr_inv _ _ _ _ Hr) _ _ E2).
  - split; [intros o; apply up_live|]. apply has_vector_spec. apply negb_true_iff. exact H2.
Qed.

Lemma one_call sr c ord : target b s c ord -> ~ full sr ->
  (entered b c = false /\ serialize b sr c ord = (answer b c ord, sr)) \/
  (entered b c = true /\ exists sr', serialize b sr c ord = (answer b c ord, sr') /\
     serialize b sr c (up_to_removed b ord) = (Ok tt, sr') /\
     (exists fc0, sr_contracts sr' = sr_contracts sr ++ [fc0] /\ describes (ci_ty c) fc0) /\
     exists objs, sr_objects sr' = sr_objects sr ++ objs /\ length objs = length (up_to_removed b ord)).
Proof.
  intros Ht Hf. destruct (entered b c) eqn:He; [right|left]; split; auto.
  - pose proof (target_part _ _ Ht He) as Hok. apply andb_prop in He. destruct He as [H1 H2].
    assert (Hne : ct_states (ci_ty c) = [] -> forall o, In o ord -> obj_at b o <> None).
    { destruct Ht as [E|[_ [_ H]]]; auto. unfold live_contract in H1. rewrite E in H1. discriminate. }
    destruct (build_objects _ _ _ _ Hr _ Hok _ (incl_refl _)) as [ps [Em Hps]]. cbn [fst snd] in Em, Hps.
    unfold answer. rewrite H1. apply negb_true_iff in H2. rename H2 into Hv. rewrite Hv. cbn [negb].
    unfold serialize. unfold live_contract, con_at in H1. unfold contract_data_of.
    destruct (get (b_contracts b) (ci_handle c)) as [cd|]; [|discriminate].
    pose proof (ser_contract_cases (ci_ty c)) as Hc. apply has_vector_spec in Hv.
    destruct (ser_contract (ci_ty c)) as [fc0|e|]; [|tauto|tauto]. destruct Hc as [_ Hd].
    destruct (N.eqb_spec (as_u16 (length (sr_contracts sr ++ [fc0]))) 0) as [E|E].
    { exfalso. apply Hf. unfold full, as_u16 in *. rewrite app_length, Nat.add_1_r in E. exact E. }
    cbv zeta. eexists. split; [|split; [|split]].
    + exact (ser_objects_stop b c _ ps _ ord Hps Em Hne).
    + rewrite <- Em. apply ser_objects_ok. auto.
    + exists fc0. split; auto. rewrite adds_contracts. reflexivity.
    + rewrite <- Em, map_length. match goal with |- context [fold_left _ _ ?x] => destruct (adds_objects (as_u16 (length (sr_contracts sr ++ [fc0])) - 1) ps x) as [objs [G1 G2]] end.
      exists objs. split; [exact G1|exact G2].
  - unfold entered in He. unfold answer, serialize, contract_data_of. unfold live_contract, con_at in *.
    destruct (get (b_contracts b) (ci_handle c)) as [cd|] eqn:Eg; cbn [negb].
    + cbn in He. destruct (has_vector c) eqn:Hv; [|discriminate]. unfold ser_contract. rewrite (ser_types_vec _ Hv). reflexivity.
    + reflexivity.
Qed.

Lemma kept_cons c ord l : kept b ((c, ord) :: l) = if entered b c then (c, up_to_removed b ord) :: kept b l else kept b l.
Proof. unfold kept. cbn [filter fst]. destruct (entered b c); reflexivity. Qed.

Lemma kept_part l : attempt b s l -> part b s (kept b l) /\ intact b (kept b l) /\ plain (kept b l).
Proof.
  intros [H1 H2].
  assert (H3 : forall c ord, In (c, ord) (kept b l) -> sel_ok b s (c, ord)).
  { intros c ord Hin. unfold kept in Hin. apply in_map_iff in Hin. destruct Hin as [[c' ord'] [E Hin]]. cbn in E. injection E as <- <-.
    apply filter_In in Hin. destruct Hin as [Hin He]. apply target_part; auto. }
  split; [|split].
  - constructor.
    + intros c ord Hin. exact (proj1 (H3 _ _ Hin)).
    + intros c ord Hin. exact (proj1 (proj2 (H3 _ _ Hin))).
    + clear H1 H3. induction l as [|[c ord] l IH]; [constructor|]. rewrite kept_cons. cbn [map fst] in H2.
      inversion H2 as [|x y H4 H5]; subst x y. destruct (entered b c); auto. cbn [map fst]. constructor; auto.
      intros Hin. apply H4. apply in_map_iff in Hin. destruct Hin as [[c' ord'] [E Hin]]. unfold kept in Hin.
      apply in_map_iff in Hin. destruct Hin as [[c2 ord2] [E2 Hin]]. cbn in E2. injection E2 as <- <-. apply filter_In in Hin.
      apply in_map_iff. exists (c2, ord2). cbn in *. tauto.
  - intros c ord o Hin Ho. exact (proj1 (proj2 (proj2 (H3 _ _ Hin))) o Ho).
  - intros c ord p Hin. exact (proj2 (proj2 (proj2 (H3 _ _ Hin))) p).
Qed.

Lemma each_all : forall l sr, (forall c ord, In (c, ord) l -> target b s c ord) ->
  (N.of_nat (length (sr_contracts sr) + length (kept b l)) < 65536)%N ->
  exists sr', serialize_each b sr l = (map (fun p => answer b (fst p) (snd p)) l, sr') /\
    serialize_all b sr (kept b l) = (Ok tt, sr').
Proof.
  induction l as [|[c ord] l IH]; intros sr Ht Hlt; [exists sr; auto|].
  cbn [serialize_each map fst snd].
  destruct (entered b c) eqn:He.
  - rewrite kept_cons, He in Hlt |- *. cbn [length serialize_all] in Hlt |- *.
    assert (Hf : ~ full sr).
    { unfold full. rewrite N.mod_small; lia. }
    destruct (one_call sr c ord (Ht _ _ (or_introl eq_refl)) Hf) as [[He' _]|[_ [sr1 [E1 [E2 [[fc0 [E3 _]] _]]]]]]; [congruence|].
    rewrite E1, E2. destruct (IH sr1) as [sr' [F1 F2]].
    { intros c' ord' Hin. apply Ht. right; auto. }
    { rewrite E3, app_length. cbn [length]. lia. }
    exists sr'. split; [|exact F2]. rewrite F1.
    unfold answer. destruct (negb (live_contract b c)), (has_vector c), (forallb (live_object b) ord); reflexivity.
  - rewrite kept_cons, He in Hlt |- *.
    assert (E1 : serialize b sr c ord = (answer b c ord, sr)).
    { unfold entered in He. unfold answer, serialize, contract_data_of. unfold live_contract, con_at in *.
      destruct (get (b_contracts b) (ci_handle c)) as [cd|] eqn:Eg; cbn [negb].
      + cbn in He. destruct (has_vector c) eqn:Hv; [|discriminate]. unfold ser_contract. rewrite (ser_types_vec _ Hv). reflexivity.
      + reflexivity. }
    rewrite E1. destruct (IH sr) as [sr' [F1 F2]]; auto.
    { intros c' ord' Hin. apply Ht. right; auto. }
    exists sr'. split; [|exact F2]. rewrite F1.
    unfold answer. destruct (negb (live_contract b c)), (has_vector c), (forallb (live_object b) ord); reflexivity.
Qed.
End Fail.

(** ** Theorems *)

(** A program that ignores failures.  Every call gives the documented answer, none
    panics, and [finish] writes exactly what was kept; if the kept objects refer to
    something not kept, it panics. *)
Theorem C63_ignored_failures :
  forall k ops rs b l,
    crun (baseline_new k) ops = (rs, b) -> existsb is_panic rs = false -> all_disciplined rs_empty ops rs ->
    attempt b (rfinal rs_empty ops rs) l -> fits_format (kept b l) ->
    exists sr, serialize_each b ser_new l = (map (fun p => answer b (fst p) (snd p)) l, sr) /\
      forall ordc ordo, Permutation ordc (hm_cstates sr) -> Permutation ordo (hm_ostates sr) ->
        (closed b (kept b l) -> exists fb, ser_finish b sr ordc ordo = Ok (Some fb) /\ encodes b (kept b l) fb) /\
        (~ closed b (kept b l) -> ser_finish b sr ordc ordo = Panic).
Proof.
  intros k ops rs b l Hc Hp Hd Hat Hfit.
  destruct (rfinal_rrel _ _ _ _ _ _ _ (rrel_empty k) Hc Hp Hd) as [fs [fc Hr]].
  destruct (kept_part _ _ _ _ Hr _ Hat) as [H1 [H2 H3]].
  destruct (buffer_of_part _ _ _ _ _ Hr H1 H2 H3 Hfit) as [sr [E Hfin]].
  destruct (each_all _ _ _ _ Hr l ser_new (proj1 Hat)) as [sr' [F1 F2]]. { exact (proj1 Hfit). }
  rewrite E in F2. injection F2 as <-. exists sr. auto.
Qed.
Print Assumptions C63_ignored_failures.

(** One call, on any serializer: the answer, and what it leaves in the serializer. *)
Theorem C63_call_exact :
  forall k ops rs b sr c ord,
    crun (baseline_new k) ops = (rs, b) -> existsb is_panic rs = false -> all_disciplined rs_empty ops rs ->
    target b (rfinal rs_empty ops rs) c ord -> ~ full sr ->
    exists sr', serialize b sr c ord = (answer b c ord, sr') /\
      (con_at b (ci_handle c) = None \/ (exists p, In (TVec p) (ct_states (ci_ty c))) -> sr' = sr) /\
      (con_at b (ci_handle c) <> None -> (forall p, ~ In (TVec p) (ct_states (ci_ty c))) ->
         serialize b sr c (up_to_removed b ord) = (Ok tt, sr') /\
         (exists fc, sr_contracts sr' = sr_contracts sr ++ [fc] /\ describes (ci_ty c) fc) /\
         exists objs, sr_objects sr' = sr_objects sr ++ objs /\ length objs = length (up_to_removed b ord)).
Proof.
  intros k ops rs b sr c ord Hc Hp Hd Ht Hf.
  destruct (rfinal_rrel _ _ _ _ _ _ _ (rrel_empty k) Hc Hp Hd) as [fs [fc Hr]].
  destruct (one_call _ _ _ _ Hr sr c ord Ht Hf) as [[He E]|[He [sr' [E1 [E2 E3]]]]].
  - exists sr. split; auto. split; auto. intros H1 H2. exfalso. unfold entered in He. apply has_vector_spec in H2. rewrite H2 in He.
    unfold live_contract in He. destruct (con_at b (ci_handle c)); [discriminate|auto].
  - exists sr'. split; auto. split; auto. apply andb_prop in He. destruct He as [H1 H2]. apply negb_true_iff in H2.
    intros [H|[p Hin]].
    + unfold live_contract in H1. rewrite H in H1. discriminate.
    + exfalso. exact (proj1 (has_vector_spec c) H2 p Hin).
Qed.
Print Assumptions C63_call_exact.

(** A failed call leaves no trace exactly if it failed because of the handle or of a
    vector field. *)
Theorem C63_no_trace_iff :
  forall k ops rs b sr c ord e sr',
    crun (baseline_new k) ops = (rs, b) -> existsb is_panic rs = false -> all_disciplined rs_empty ops rs ->
    target b (rfinal rs_empty ops rs) c ord -> ~ full sr ->
    serialize b sr c ord = (Err e, sr') ->
    (sr' = sr <-> e <> EBindFailed).
Proof.
  intros k ops rs b sr c ord e sr' Hc Hp Hd Ht Hf E.
  destruct (rfinal_rrel _ _ _ _ _ _ _ (rrel_empty k) Hc Hp Hd) as [fs [fc Hr]].
  destruct (one_call _ _ _ _ Hr sr c ord Ht Hf) as [[He E1]|[He [sr1 [E1 [E2 [[fc0 [E3 _]] _]]]]]]; rewrite E in E1; injection E1 as Ea Es.
  - split; auto. intros _ ->. unfold answer in Ea. unfold entered in He.
    destruct (live_contract b c); [|discriminate]. destruct (has_vector c); [discriminate|discriminate].
  - subst sr1. split.
    + intros ->. exfalso. apply (f_equal (@length _)) in E3. rewrite app_length in E3. cbn in E3. lia.
    + intros Hn. exfalso. apply Hn. unfold answer in Ea. apply andb_prop in He. destruct He as [H1 H2]. apply negb_true_iff in H2.
      rewrite H1, H2 in Ea. cbn in Ea. destruct (forallb (live_object b) ord); congruence.
Qed.
Print Assumptions C63_no_trace_iff.

(** Refuted: "a failed call writes nothing".  It fails for every contract with
    (primitive) fields that still lists a removed object, on every serializer. *)
Theorem C63_failed_call_writes_nothing_refuted :
  forall k ops rs b sr c ord,
    crun (baseline_new k) ops = (rs, b) -> existsb is_panic rs = false -> all_disciplined rs_empty ops rs ->
    rs_con (rfinal rs_empty ops rs) (ci_handle c) = Some (ci_ty c) ->
    (exists cd, con_at b (ci_handle c) = Some cd /\ Permutation ord (cd_objects cd)) ->
    ct_states (ci_ty c) <> [] -> (forall p, ~ In (TVec p) (ct_states (ci_ty c))) ->
    (exists o, In o ord /\ obj_at b o = None) -> ~ full sr ->
    exists sr' fc, serialize b sr c ord = (Err EBindFailed, sr') /\
      sr_contracts sr' = sr_contracts sr ++ [fc] /\ describes (ci_ty c) fc.
Proof.
  intros k ops rs b sr c ord Hc Hp Hd H1 H2 H3 H4 [o [H5 H6]] Hf.
  destruct (C63_call_exact k ops rs b sr c ord Hc Hp Hd) as [sr' [E1 [_ E2]]]; auto.
  { right. split; auto. }
  destruct H2 as [cd [H2 _]]. destruct E2 as [_ [[fc [E2 E3]] _]]; auto; try congruence. exists sr', fc. split; auto.
  rewrite E1. f_equal. unfold answer, live_contract. rewrite H2. rewrite (proj2 (has_vector_spec c) H4). cbn.
  replace (forallb (live_object b) ord) with false; auto. symmetry.
  destruct (forallb (live_object b) ord) eqn:E; auto. rewrite forallb_forall in E. specialize (E _ H5). unfold live_object in E.
  rewrite H6 in E. discriminate.
Qed.
Print Assumptions C63_failed_call_writes_nothing_refuted.

(** Refuted: "what a failed call writes is determined by the baseline".  The object
    set is a hash set; if it holds a live and a removed object, one iteration order
    writes no object at all and another writes at least one. *)
Theorem C63_leftovers_depend_on_hash_order_refuted :
  forall k ops rs b sr c cd o1 o2,
    crun (baseline_new k) ops = (rs, b) -> existsb is_panic rs = false -> all_disciplined rs_empty ops rs ->
    rs_con (rfinal rs_empty ops rs) (ci_handle c) = Some (ci_ty c) ->
    con_at b (ci_handle c) = Some cd ->
    ct_states (ci_ty c) <> [] -> (forall p, ~ In (TVec p) (ct_states (ci_ty c))) ->
    In o1 (cd_objects cd) -> obj_at b o1 <> None -> In o2 (cd_objects cd) -> obj_at b o2 = None -> ~ full sr ->
    exists ord1 ord2 sr1 sr2,
      Permutation ord1 (cd_objects cd) /\ Permutation ord2 (cd_objects cd) /\
      serialize b sr c ord1 = (Err EBindFailed, sr1) /\ serialize b sr c ord2 = (Err EBindFailed, sr2) /\
      length (sr_objects sr1) > length (sr_objects sr) /\ sr_objects sr2 = sr_objects sr.
Proof.
  intros k ops rs b sr c cd o1 o2 Hc Hp Hd Hrs Hcd Hne Hnv H1 L1 H2 L2 Hf.
  destruct (in_split _ _ H1) as [x1 [y1 E1]]. destruct (in_split _ _ H2) as [x2 [y2 E2]].
  assert (P1 : Permutation (o1 :: x1 ++ y1) (cd_objects cd)) by (rewrite E1; apply Permutation_middle).
  assert (P2 : Permutation (o2 :: x2 ++ y2) (cd_objects cd)) by (rewrite E2; apply Permutation_middle).
  assert (K : forall ord, Permutation ord (cd_objects cd) ->
    exists sr', serialize b sr c ord = (Err EBindFailed, sr') /\ length (sr_objects sr') = length (sr_objects sr) + length (up_to_removed b ord) /\
      exists objs, sr_objects sr' = sr_objects sr ++ objs).
  { intros ord P. destruct (C63_failed_call_writes_nothing_refuted k ops rs b sr c ord Hc Hp Hd Hrs) as [sr' [_ [F _]]]; eauto.
    { exists o2. split; auto. eapply Permutation_in; [apply Permutation_sym; exact P|auto]. }
    destruct (C63_call_exact k ops rs b sr c ord Hc Hp Hd) as [sr1 [G1 [_ G2]]]; auto.
    { right. split; auto. split; eauto. }
    rewrite F in G1. injection G1 as _ <-. 
    destruct G2 as [_ [_ [objs [A1 A2]]]]; auto; try congruence.
    exists sr'. split; auto. split; [rewrite A1, app_length; lia|eauto]. }
  destruct (K _ P1) as [sr1 [F1 [F2 _]]]. destruct (K _ P2) as [sr2 [G1 [G2 [objs G3]]]].
  exists (o1 :: x1 ++ y1), (o2 :: x2 ++ y2), sr1, sr2. do 4 (split; auto). split.
  - rewrite F2. cbn [up_to_removed]. unfold live_object at 1. destruct (obj_at b o1); [cbn; lia|tauto].
  - rewrite G3, app_length in G2. cbn [up_to_removed] in G2. unfold live_object in G2. rewrite L2 in G2. cbn in G2.
    destruct objs; [rewrite app_nil_r in G3; exact G3|cbn in G2; lia].
Qed.
Print Assumptions C63_leftovers_depend_on_hash_order_refuted.

(** Retrying is pointless: the serializer borrows the baseline, so nothing can change
    in between, and the answer does not depend on the serializer or on the order. *)
Theorem C63_retry_gives_the_same_answer :
  forall k ops rs b sr sr' c ord ord',
    crun (baseline_new k) ops = (rs, b) -> existsb is_panic rs = false -> all_disciplined rs_empty ops rs ->
    target b (rfinal rs_empty ops rs) c ord -> Permutation ord ord' -> ~ full sr -> ~ full sr' ->
    fst (serialize b sr c ord) = fst (serialize b sr' c ord') /\ fst (serialize b sr c ord) <> Panic.
Proof.
  intros k ops rs b sr sr' c ord ord' Hc Hp Hd Ht P Hf Hf'.
  assert (Ht' : target b (rfinal rs_empty ops rs) c ord').
  { destruct Ht as [H|[H1 [[cd [H2 H3]] H4]]]; [left; auto|right]. split; auto. split.
    - exists cd. split; auto. eapply Permutation_trans; [apply Permutation_sym; exact P|exact H3].
    - intros E o Ho. apply H4; auto. eapply Permutation_in; [apply Permutation_sym; exact P|auto]. }
  destruct (C63_call_exact k ops rs b sr c ord Hc Hp Hd Ht Hf) as [s1 [E1 _]].
  destruct (C63_call_exact k ops rs b sr' c ord' Hc Hp Hd Ht' Hf') as [s2 [E2 _]].
  rewrite E1, E2. cbn [fst]. unfold answer.
  replace (forallb (live_object b) ord') with (forallb (live_object b) ord).
  - split; auto. destruct (negb (live_contract b c)), (has_vector c), (forallb (live_object b) ord); discriminate.
  - clear - P. induction P as [|x l l' P IH|x y l|l m n P1 IH1 P2 IH2]; cbn; auto; [congruence| |congruence].
    destruct (live_object b x), (live_object b y); auto.
Qed.
Print Assumptions C63_retry_gives_the_same_answer.

(** *** A history that meets the hypotheses: a removed object, a contract with a
    vector field, a handle that was never given out.  ([object_remove] itself reports
    an error after removing the object: C09.) *)
Definition sfV : contract_ty := mkCty (mkCid "sf.vec" (1%N, 0%N, 0%N)) [TPrim TU8; TVec TU8] ["a"; "v"] [] [].
Definition sfOps : list rop :=
  [RRegister sfV; RRegister rtM;
   RCreate rtM (rtI 1) [PPrim (VString "x"); PPrim (VObjectHandle (rtI 0))] [];
   RCreate rtM (rtI 1) [PPrim (VString "y"); PPrim (VObjectHandle (rtI 0))] [];
   RCreate rtM (rtI 1) [PPrim (VString "z"); PPrim (VObjectHandle (rtI 2))] [];
   RRemove rtM (rtI 1)].
Definition sfAns : list (outcome rret) :=
  [Ok (YHandle (rtI 0)); Ok (YHandle (rtI 1)); Ok (YHandle (rtI 0)); Ok (YHandle (rtI 1)); Ok (YHandle (rtI 2)); Err EBindNoObject].
Definition sfB : baseline := snd (crun (baseline_new KMain) sfOps).
Definition sfL : list (contract_inst * list index) :=
  [(mkCinst sfV (rtI 0), []); (mkCinst rtM (rtI 1), [rtI 0; rtI 1; rtI 2]); (mkCinst rtN (rtI 9), [])].

Example sf_history :
  crun (baseline_new KMain) sfOps = (sfAns, sfB) /\ existsb is_panic sfAns = false /\ all_disciplined rs_empty sfOps sfAns.
Proof.
  split; [|split; [reflexivity|]].
  - rewrite (surjective_pairing (crun (baseline_new KMain) sfOps)). unfold sfB. apply f_equal2; [vm_compute; reflexivity|reflexivity].
  - unfold sfOps, sfAns. cbn -[rtN rtM sfV].
    repeat match goal with |- _ /\ _ => split end; auto;
      try (intros C' Hc; vm_compute in Hc; injection Hc as <-; reflexivity); try (eexists _, _; unfold is_bound; cbn; tauto).
Qed.
Example sf_hypotheses :
  attempt sfB (rfinal rs_empty sfOps sfAns) sfL /\ kept sfB sfL = [(mkCinst rtM (rtI 1), [rtI 0])] /\
  fits_format (kept sfB sfL) /\ closed sfB (kept sfB sfL) /\ ~ full ser_new.
Proof.
  assert (Ek : kept sfB sfL = [(mkCinst rtM (rtI 1), [rtI 0])]) by (vm_compute; reflexivity).
  split; [|split; [exact Ek|split; [|split]]].
  - split.
    + intros c ord [E|[E|[E|[]]]]; injection E as <- <-.
      * right. split; [vm_compute; reflexivity|]. split; [|discriminate]. eexists. split; [vm_compute; reflexivity|]. apply Permutation_refl.
      * right. split; [vm_compute; reflexivity|]. split; [|discriminate]. eexists. split; [vm_compute; reflexivity|]. apply Permutation_refl.
      * left. vm_compute. reflexivity.
    + cbn. repeat constructor; cbn; intuition discriminate.
  - rewrite Ek. split; [|split]; vm_compute; congruence.
  - rewrite Ek. intros n c o i v [E|[]] Hv. injection E as <- <- <-.
    assert (E0 : field_of sfB (mkCinst rtM (rtI 1)) 0 (rtI 0) = Some (PPrim (VString "x"))) by (vm_compute; reflexivity).
    assert (E1 : field_of sfB (mkCinst rtM (rtI 1)) 1 (rtI 0) = Some (PPrim (VObjectHandle (rtI 0)))) by (vm_compute; reflexivity).
    destruct i as [|[|i]].
    + rewrite E0 in Hv. injection Hv as <-. split; discriminate.
    + rewrite E1 in Hv. injection Hv as <-. split; [intros o' E|discriminate].
      injection E as <-. exists 0, 0, (mkCinst rtM (rtI 1)). reflexivity.
    + exfalso. assert (E2 : field_of sfB (mkCinst rtM (rtI 1)) (S (S i)) (rtI 0) = None).
      { unfold field_of, ci_state_id. replace (nth_error (ct_states (ci_ty (mkCinst rtM (rtI 1)))) (S (S i))) with (@None ptype); [reflexivity|].
        destruct i; reflexivity. }
      rewrite E2 in Hv. clear - Hv. discriminate Hv.
  - unfold full. vm_compute. discriminate.
Qed.
(** The failed call, by evaluation: the answers, and the buffer that holds one of the
    two live objects of [rtM]; with another order of the object set it holds none. *)
Example sf_run :
  fst (serialize_each sfB ser_new sfL) = [Err EVectorsUnsupported; Err EBindFailed; Err ENoContractForHandle] /\
  (exists fb, (let sr := snd (serialize_each sfB ser_new sfL) in ser_finish sfB sr (hm_cstates sr) (hm_ostates sr)) = Ok (Some fb) /\
     fb_objects fb = Some [mkFbObject (Some 0%N) (Some [0%N; 1%N])] /\ option_map (@length _) (fb_contracts fb) = Some 1) /\
  sr_objects (snd (serialize sfB ser_new (mkCinst rtM (rtI 1)) [rtI 1; rtI 0; rtI 2])) = [].
Proof.
  split; [vm_compute; reflexivity|]. split; [|vm_compute; reflexivity].
  eexists. split; [vm_compute; reflexivity|]. split; vm_compute; reflexivity.
Qed.
