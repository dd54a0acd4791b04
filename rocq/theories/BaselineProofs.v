(** Proofs about baselines. *)
From Verif Require Export ArenaProofs BaselineSpec.

(** ** Equality of ids *)
Lemma string_eqb_eq a b : string_eqb a b = true <-> a = b.
Proof. apply String.eqb_eq. Qed.

Lemma contract_id_eqb_eq a b : contract_id_eqb a b = true <-> a = b.
Proof.
  destruct a as [n [[a1 a2] a3]], b as [m [[b1 b2] b3]]. unfold contract_id_eqb; cbn.
  rewrite !andb_true_iff, string_eqb_eq, !N.eqb_eq. split.
  - intros [-> [[-> ->] ->]]. reflexivity.
  - intros H; injection H as -> -> -> ->. auto.
Qed.

Lemma contract_id_eqb_refl a : contract_id_eqb a a = true.
Proof. apply contract_id_eqb_eq; reflexivity. Qed.

Lemma contract_id_eqb_spec a b : reflect (a = b) (contract_id_eqb a b).
Proof.
  destruct (contract_id_eqb a b) eqn:E; constructor.
  - apply contract_id_eqb_eq; auto.
  - intros H. apply contract_id_eqb_eq in H. congruence.
Qed.

(** ** Field iterators *)
Definition ids_from (types : list ptype) (h : index) (k : nat) : list prop_id :=
  map (fun p => mkPid (snd p) (fst p) h) (combine (seq k (length types - k)) (skipn k types)).

Lemma skipn_nth_cons {A} (l : list A) k x :
  nth_error l k = Some x -> skipn k l = x :: skipn (S k) l.
Proof.
  revert k; induction l as [|y l IH]; intros [|k] H; cbn in H; try discriminate.
  - injection H as ->. reflexivity.
  - cbn [skipn]. rewrite (IH k H). reflexivity.
Qed.

Lemma iter_drain_ids types h : forall fuel k,
  length types - k < fuel -> iter_drain fuel types (mkIter h k) = ids_from types h k.
Proof.
  induction fuel as [|f IH]; intros k Hk; [lia|]. cbn [iter_drain]. unfold iter_next. cbn.
  destruct (nth_error types k) as [t|] eqn:E.
  - pose proof (nth_error_lt _ _ _ E) as Hlt. rewrite IH by lia.
    unfold ids_from. replace (length types - k) with (S (length types - S k)) by lia.
    rewrite (skipn_nth_cons _ _ _ E). reflexivity.
  - apply nth_error_None in E. unfold ids_from.
    replace (length types - k) with 0 by lia. reflexivity.
Qed.

Lemma iter_collect_ids types h : iter_collect types h = ids_from types h 0.
Proof. unfold iter_collect, iter_new. apply iter_drain_ids. lia. Qed.

Lemma ids_from_cons types h k t :
  nth_error types k = Some t -> ids_from types h k = mkPid t k h :: ids_from types h (S k).
Proof.
  intros E. pose proof (nth_error_lt _ _ _ E) as Hlt.
  unfold ids_from. replace (length types - k) with (S (length types - S k)) by lia.
  rewrite (skipn_nth_cons _ _ _ E). reflexivity.
Qed.

Lemma ids_from_nil types h k : length types <= k -> ids_from types h k = [].
Proof. intros H. unfold ids_from. replace (length types - k) with 0 by lia. reflexivity. Qed.

Lemma ids_from_length types h k : length (ids_from types h k) = length types - k.
Proof.
  unfold ids_from. rewrite map_length, combine_length, seq_length, skipn_length. lia.
Qed.

Lemma ids_from_nth types h : forall i k,
  nth_error (ids_from types h k) i = option_map (fun t => mkPid t (k + i) h) (nth_error types (k + i)).
Proof.
  induction i as [|i IH]; intros k.
  - destruct (nth_error types k) as [t|] eqn:E.
    + rewrite (ids_from_cons _ _ _ _ E), Nat.add_0_r, E. reflexivity.
    + rewrite ids_from_nil by (apply nth_error_None; auto). rewrite Nat.add_0_r, E. reflexivity.
  - destruct (nth_error types k) as [t|] eqn:E.
    + rewrite (ids_from_cons _ _ _ _ E). cbn. rewrite IH. replace (S k + i) with (k + S i) by lia. reflexivity.
    + apply nth_error_None in E. rewrite ids_from_nil by auto.
      replace (nth_error types (k + S i)) with (@None ptype); [reflexivity|].
      symmetry. apply nth_error_None. lia.
Qed.

Lemma state_ids_nth C h i :
  nth_error (state_ids C h) i = option_map (fun t => mkPid t i h) (nth_error (ct_states C) i).
Proof. unfold state_ids. rewrite iter_collect_ids, ids_from_nth. reflexivity. Qed.
Lemma chan_ids_nth C h i :
  nth_error (chan_ids C h) i = option_map (fun t => mkPid t i h) (nth_error (ct_chans C) i).
Proof. unfold chan_ids. rewrite iter_collect_ids, ids_from_nth. reflexivity. Qed.

Lemma ids_nil types h : iter_collect types h = [] <-> types = [].
Proof.
  rewrite iter_collect_ids. destruct types as [|t l]; split; auto; try discriminate.
Qed.

(** ** Type maps of arenas *)
Section TypeMaps.
Context {X : Type}.
Implicit Types (m : typemap X).

Definition tm_wf m : Prop := forall t a, m t = Some a -> ainv a.
Definition tm_look m (t : ptype) (h : index) : option X :=
  match m t with Some a => get a h | None => None end.
Definition tm_arena m t : arena X := match m t with Some a => a | None => arena_new end.

Lemma tm_get_ok m t h v : tm_get m t h = Ok v <-> tm_look m t h = Some v.
Proof.
  unfold tm_get, tm_look. destruct (m t) as [a|]; [|split; discriminate].
  destruct (get a h); cbn; split; congruence.
Qed.

Lemma tm_get_look m t h :
  match tm_get m t h with Ok v => Some v | _ => None end = tm_look m t h.
Proof. unfold tm_get, tm_look. destruct (m t) as [a|]; auto. destruct (get a h); auto. Qed.

Lemma tm_get_not_panic m t h : tm_get m t h <> Panic.
Proof. unfold tm_get. destruct (m t) as [a|]; [destruct (get a h)|]; cbn; discriminate. Qed.

Lemma tm_arena_wf m t : tm_wf m -> ainv (tm_arena m t).
Proof.
  intros H. unfold tm_arena. destruct (m t) as [a|] eqn:E; [eapply H; eauto|apply arena_new_inv].
Qed.

Lemma tm_arena_get m t h : get (tm_arena m t) h = tm_look m t h.
Proof. unfold tm_arena, tm_look. destruct (m t); auto. apply arena_new_get. Qed.

Lemma tm_set_wf m t a : tm_wf m -> ainv a -> tm_wf (tm_set m t a).
Proof.
  intros Hm Ha t' a'. unfold tm_set. destruct (ptype_eqb t t'); [congruence|apply Hm].
Qed.

Lemma tm_set_look m t a t' h :
  tm_look (tm_set m t a) t' h = if ptype_eqb t t' then get a h else tm_look m t' h.
Proof. unfold tm_look, tm_set. destruct (ptype_eqb t t'); reflexivity. Qed.

Lemma tm_empty_wf : tm_wf (@tm_empty X).
Proof. intros t a H. discriminate. Qed.

(** Inserting one value. *)
Definition tm_same (t1 : ptype) (h1 : index) t2 h2 : bool := ptype_eqb t1 t2 && index_eqb h1 h2.

Lemma tm_same_true t1 h1 t2 h2 : tm_same t1 h1 t2 h2 = true <-> t1 = t2 /\ h1 = h2.
Proof. unfold tm_same. rewrite andb_true_iff, ptype_eqb_eq, index_eqb_eq. tauto. Qed.

Lemma tm_same_refl t h : tm_same t h t h = true.
Proof. apply tm_same_true; auto. Qed.

Lemma tm_insert_spec m t x :
  tm_wf m ->
  exists a' h, insert (tm_arena m t) x = Ok (a', h) /\
    tm_wf (tm_set m t a') /\ tm_look m t h = None /\
    (forall t' h', tm_look (tm_set m t a') t' h' =
       if tm_same t h t' h' then Some x else tm_look m t' h').
Proof.
  intros Hm. pose proof (tm_arena_wf m t Hm) as Ha.
  destruct (insert_ok _ x Ha) as [a' [h Hi]]. exists a', h. split; auto. split; [|split].
  - apply tm_set_wf; auto. eapply insert_inv; eauto.
  - rewrite <- tm_arena_get. eapply insert_fresh; eauto.
  - intros t' h'. rewrite tm_set_look. unfold tm_same.
    destruct (ptype_eqb_spec t t') as [<-|]; cbn; auto.
    rewrite (insert_get _ _ _ _ h' Ha Hi), tm_arena_get. reflexivity.
Qed.

Lemma tm_write_spec m t a h x a' :
  tm_wf m -> m t = Some a -> set a h x = Some a' ->
  tm_wf (tm_set m t a') /\ tm_look m t h <> None /\
  (forall t' h', tm_look (tm_set m t a') t' h' =
       if tm_same t h t' h' then Some x else tm_look m t' h').
Proof.
  intros Hm Ha Hs. pose proof (Hm _ _ Ha) as Hinv. split; [|split].
  - apply tm_set_wf; auto. eapply set_inv; eauto.
  - unfold tm_look. rewrite Ha. destruct (set_spec _ _ _ _ Hinv Hs) as [_ [[old Ho] _]]. congruence.
  - intros t' h'. rewrite tm_set_look. unfold tm_same.
    destruct (ptype_eqb_spec t t') as [<-|]; cbn; auto.
    rewrite (set_get _ _ _ _ h' Hinv Hs). unfold tm_look. rewrite Ha. reflexivity.
Qed.

(** Inserting several values. *)
Inductive tm_ins (ty : X -> ptype) : typemap X -> list X -> list index -> typemap X -> Prop :=
| tm_ins_nil m : tm_ins ty m [] [] m
| tm_ins_cons m x xs h hs a' m2 :
    insert (tm_arena m (ty x)) x = Ok (a', h) ->
    tm_ins ty (tm_set m (ty x) a') xs hs m2 ->
    tm_ins ty m (x :: xs) (h :: hs) m2.

Record ins_spec (ty : X -> ptype) m xs hs m' : Prop := {
  is_wf : tm_wf m';
  is_len : length hs = length xs;
  is_new : forall i x h, nth_error xs i = Some x -> nth_error hs i = Some h ->
             tm_look m (ty x) h = None /\ tm_look m' (ty x) h = Some x;
  is_old : forall t h v, tm_look m t h = Some v -> tm_look m' t h = Some v;
  is_only : forall t h v, tm_look m' t h = Some v ->
     tm_look m t h = Some v \/
     exists i, nth_error xs i = Some v /\ nth_error hs i = Some h /\ ty v = t;
  is_inj : forall i j x y h, nth_error xs i = Some x -> nth_error xs j = Some y ->
     nth_error hs i = Some h -> nth_error hs j = Some h -> ty x = ty y -> i = j
}.

Lemma tm_ins_spec ty m xs hs m' : tm_wf m -> tm_ins ty m xs hs m' -> ins_spec ty m xs hs m'.
Proof.
  intros Hm Hi. induction Hi as [m|m x xs h hs a' m2 Hi Hr IH].
  - constructor; auto; intros i; intros; destruct i; discriminate.
  - destruct (tm_insert_spec m (ty x) x Hm) as [a1 [h1 [Hi1 [Hwf1 [Hnone Hl]]]]].
    rewrite Hi in Hi1. injection Hi1 as <- <-.
    destruct (IH Hwf1) as [Jwf Jlen Jnew Jold Jonly Jinj]. constructor; auto.
    + cbn. lia.
    + intros [|i] y h' Hy Hh'; cbn in Hy, Hh'.
      * injection Hy as <-. injection Hh' as <-. split; auto.
        apply Jold. rewrite Hl, tm_same_refl. reflexivity.
      * destruct (Jnew i y h' Hy Hh') as [Ha Hb]. split; auto.
        rewrite Hl in Ha. destruct (tm_same (ty x) h (ty y) h'); congruence.
    + intros t h' v Hv. apply Jold. rewrite Hl.
      destruct (tm_same (ty x) h t h') eqn:E; auto.
      apply tm_same_true in E. destruct E as [<- <-]. congruence.
    + intros t h' v Hv. destruct (Jonly t h' v Hv) as [Hv'|[i [Hx [Hh Ht]]]].
      * rewrite Hl in Hv'. destruct (tm_same (ty x) h t h') eqn:E; auto.
        apply tm_same_true in E. destruct E as [<- <-]. injection Hv' as ->.
        right. exists 0. auto.
      * right. exists (S i). auto.
    + assert (Hz : forall j y, nth_error xs j = Some y -> nth_error hs j = Some h -> ty x = ty y -> False).
      { intros j y Hy Hh Ht. destruct (Jnew j y h Hy Hh) as [Ha _].
        rewrite Hl, <- Ht, tm_same_refl in Ha. discriminate. }
      intros [|i] [|j] y z h' Hy Hz' Hh Hh' Ht; cbn in *; auto.
      * exfalso. injection Hy as <-. injection Hh as <-. eapply Hz; eauto.
      * exfalso. injection Hz' as <-. injection Hh' as <-. eapply Hz; eauto.
      * f_equal. eapply Jinj; eauto.
Qed.
End TypeMaps.

(** ** Record lemmas *)
Lemma with_objects_id b : with_objects b (b_objects b) = b.
Proof. destruct b; reflexivity. Qed.
Lemma with_states_id b : with_states b (b_states b) = b.
Proof. destruct b; reflexivity. Qed.
Lemma with_channels_id b : with_channels b (b_channels b) = b.
Proof. destruct b; reflexivity. Qed.
Lemma with_contracts_id b : with_contracts b (b_contracts b) = b.
Proof. destruct b; reflexivity. Qed.

(** ** Creation loops *)
Lemma states_create_ok vs : forall b,
  tm_wf (b_states b) ->
  exists hs m', states_create b vs = (Ok hs, with_states b m') /\ tm_ins prop_type (b_states b) vs hs m'.
Proof.
  induction vs as [|v vs IH]; intros b Hb.
  - exists [], (b_states b). cbn. rewrite with_states_id. split; auto. constructor.
  - cbn [states_create]. unfold state_create. fold (tm_arena (b_states b) (prop_type v)).
    destruct (tm_insert_spec (b_states b) (prop_type v) v Hb) as [a' [h [Hi [Hwf _]]]].
    rewrite Hi. destruct (IH (with_states b (tm_set (b_states b) (prop_type v) a')) Hwf) as [hs [m' [He Ht]]].
    rewrite He. exists (h :: hs), m'. split; [reflexivity|]. econstructor; eauto.
Qed.

Lemma channels_create_ok cs : forall b,
  tm_wf (b_channels b) ->
  exists hs m', channels_create b cs = (Ok hs, with_channels b m') /\ tm_ins ch_type (b_channels b) cs hs m'.
Proof.
  induction cs as [|v vs IH]; intros b Hb.
  - exists [], (b_channels b). cbn. rewrite with_channels_id. split; auto. constructor.
  - cbn [channels_create]. unfold channel_create. fold (tm_arena (b_channels b) (ch_type v)).
    destruct (tm_insert_spec (b_channels b) (ch_type v) v Hb) as [a' [h [Hi [Hwf _]]]].
    rewrite Hi. destruct (IH (with_channels b (tm_set (b_channels b) (ch_type v) a')) Hwf) as [hs [m' [He Ht]]].
    rewrite He. exists (h :: hs), m'. split; [reflexivity|]. econstructor; eauto.
Qed.

(** ** check_types *)
Lemma check_types_ok ps : forall i ts, check_types i ps ts = Ok tt <-> ps = ts.
Proof.
  induction ps as [|p ps IH]; intros i [|t ts]; cbn; split; try discriminate; auto.
  - destruct (ptype_eqb_spec p t); [|discriminate]. subst. intros H. apply IH in H. congruence.
  - intros H; injection H as -> ->. rewrite ptype_eqb_refl. apply IH; reflexivity.
Qed.

Lemma check_types_cases ps i ts :
  (ps = ts /\ check_types i ps ts = Ok tt) \/ (ps <> ts /\ exists e, check_types i ps ts = Err e).
Proof.
  revert i ts; induction ps as [|p ps IH]; intros i [|t ts]; cbn; eauto.
  - right. split; [discriminate|eauto].
  - right. split; [discriminate|eauto].
  - destruct (ptype_eqb_spec p t) as [->|Hne].
    + destruct (IH (S i) ts) as [[-> H]|[H [e He]]]; [left; auto|right; split; [congruence|eauto]].
    + right. split; [congruence|eauto].
Qed.

(** ** The invariant *)
Record binv (b : baseline) : Prop := {
  bi_obj : ainv (b_objects b);
  bi_con : ainv (b_contracts b);
  bi_st : tm_wf (b_states b);
  bi_ch : tm_wf (b_channels b);
  bi_st_ty : forall t h v, tm_look (b_states b) t h = Some v -> prop_type v = t;
  bi_ch_ty : forall t h c, tm_look (b_channels b) t h = Some c -> ch_type c = t /\ channel_wt c;
  bi_ids : forall h1 h2 c1 c2, get (b_contracts b) h1 = Some c1 -> get (b_contracts b) h2 = Some c2 ->
             cd_id c1 = cd_id c2 -> h1 = h2;
  bi_obj_con : forall o ob, get (b_objects b) o = Some ob ->
             exists cd, get (b_contracts b) (o_contract ob) = Some cd /\ In o (cd_objects cd);
  bi_con_obj : forall h cd o, get (b_contracts b) h = Some cd -> In o (cd_objects cd) ->
             dead (b_objects b) o \/ exists ob, get (b_objects b) o = Some ob /\ o_contract ob = h;
  bi_nodup : forall h cd, get (b_contracts b) h = Some cd -> NoDup (cd_objects cd)
}.

Lemma binv_new k : binv (baseline_new k).
Proof.
  constructor; cbn -[arena_new]; intros;
    repeat match goal with H : get arena_new _ = Some _ |- _ => rewrite arena_new_get in H end;
    try discriminate; auto using arena_new_inv, tm_empty_wf.
Qed.

(** *** register_contract *)
Definition has_contract_id (b : baseline) (i : contract_id) : Prop :=
  exists h cd, get (b_contracts b) h = Some cd /\ cd_id cd = i.

Lemma register_exists b C :
  existsb (fun p => contract_id_eqb (cd_id (snd p)) (ct_id C)) (aiter (b_contracts b)) = true
  <-> has_contract_id b (ct_id C).
Proof.
  rewrite existsb_exists. split.
  - intros [[h cd] [Hin He]]. apply iter_in in Hin. apply contract_id_eqb_eq in He. exists h, cd; auto.
  - intros [h [cd [Hg He]]]. exists (h, cd). split; [apply iter_in; auto|]. apply contract_id_eqb_eq; auto.
Qed.

Lemma register_spec b C :
  binv b ->
  (has_contract_id b (ct_id C) /\ register_contract b C = (Err EContractAlreadyAdded, b)) \/
  (~ has_contract_id b (ct_id C) /\ exists cs h,
     insert (b_contracts b) (mkCdata (ct_id C) []) = Ok (cs, h) /\
     register_contract b C = (Ok (mkCinst C h), with_contracts b cs)).
Proof.
  intros Hb. unfold register_contract.
  destruct (existsb _ _) eqn:E.
  - left. split; auto. apply register_exists; auto.
  - right. split.
    + intros H. apply register_exists in H. congruence.
    + destruct (insert_ok _ (mkCdata (ct_id C) []) (bi_con _ Hb)) as [cs [h Hi]].
      exists cs, h. rewrite Hi. auto.
Qed.

Lemma register_binv b C r b' : binv b -> register_contract b C = (r, b') -> binv b' /\ r <> Panic.
Proof.
  intros Hb Hr. destruct (register_spec b C Hb) as [[_ E]|[Hno [cs [h [Hi E]]]]]; rewrite E in Hr;
    injection Hr as <- <-; [split; [auto|discriminate]|]. split; [|discriminate].
  pose proof (insert_fresh _ _ _ _ (bi_con _ Hb) Hi) as Hfresh.
  assert (Hg : forall h', get cs h' = if index_eqb h h' then Some (mkCdata (ct_id C) []) else get (b_contracts b) h')
    by (intros; eapply insert_get; eauto using bi_con).
  destruct Hb. constructor; cbn; auto.
  - eapply insert_inv; eauto.
  - intros h1 h2 c1 c2. rewrite !Hg.
    destruct (index_eqb_spec h h1) as [<-|H1], (index_eqb_spec h h2) as [<-|H2]; auto; intros E1 E2 Ei.
    + exfalso. apply Hno. injection E1 as <-. exists h2, c2. auto.
    + exfalso. apply Hno. injection E2 as <-. exists h1, c1. auto.
    + eauto.
  - intros o ob Ho. destruct (bi_obj_con0 o ob Ho) as [cd [Hc Hin]]. exists cd. split; auto.
    rewrite Hg. destruct (index_eqb_spec h (o_contract ob)); [congruence|auto].
  - intros h' cd o. rewrite Hg. destruct (index_eqb_spec h h'); [|eauto].
    intros E1. injection E1 as <-. cbn. tauto.
  - intros h' cd. rewrite Hg. destruct (index_eqb_spec h h'); [|eauto].
    intros E1. injection E1 as <-. constructor.
Qed.

(** *** set_insert *)
Lemma set_insert_in o l x : In x (set_insert o l) <-> x = o \/ In x l.
Proof.
  unfold set_insert. destruct (existsb (index_eqb o) l) eqn:E.
  - apply existsb_exists in E. destruct E as [y [Hy Ey]]. apply index_eqb_eq in Ey. subst.
    split; [auto|intros [->|]; auto].
  - rewrite in_app_iff. cbn. split; [intros [?|[?|[]]]|intros [?|?]]; subst; auto.
Qed.

Lemma set_insert_nodup o l : NoDup l -> NoDup (set_insert o l).
Proof.
  intros H. unfold set_insert. destruct (existsb (index_eqb o) l) eqn:E; auto.
  apply Permutation_NoDup with (l := o :: l); [apply Permutation_cons_append|].
  constructor; auto. intros Hin. assert (existsb (index_eqb o) l = true); [|congruence].
  apply existsb_exists. exists o. split; auto. apply index_eqb_refl.
Qed.

(** *** object_create *)
Definition creatable (b : baseline) (c : contract_inst) vs cs : Prop :=
  get (b_contracts b) (ci_handle c) <> None /\
  map prop_type vs = ct_states (ci_ty c) /\ map ch_type cs = ct_chans (ci_ty c).

Record created (b : baseline) (c : contract_inst) (vs : list dynprop) (cs : list channel)
    (oh : index) (ob : object) (b' : baseline) : Prop := {
  cr_kind : b_kind b' = b_kind b;
  cr_obj : o_contract ob = ci_handle c;
  cr_warp : o_warp ob = timewarp_default;
  cr_insert : insert (b_objects b) ob = Ok (b_objects b', oh);
  cr_con : exists cd, get (b_contracts b) (ci_handle c) = Some cd /\
     set (b_contracts b) (ci_handle c) (mkCdata (cd_id cd) (set_insert oh (cd_objects cd))) = Some (b_contracts b');
  cr_st : ins_spec prop_type (b_states b) vs (o_states ob) (b_states b');
  cr_ch : ins_spec ch_type (b_channels b) cs (o_channels ob) (b_channels b')
}.

Lemma contains_get {A} (a : arena A) h : contains a h = true <-> get a h <> None.
Proof. unfold contains. destruct (get a h); split; congruence. Qed.

Lemma create_spec b c vs cs :
  binv b ->
  (~ creatable b c vs cs /\ exists e, object_create b c vs cs = (Err e, b)) \/
  (creatable b c vs cs /\ exists oh ob b', object_create b c vs cs = (Ok oh, b') /\ created b c vs cs oh ob b').
Proof.
  intros Hb. unfold object_create, creatable.
  destruct (contains (b_contracts b) (ci_handle c)) eqn:Ec; cbn [negb].
  2:{ left. split; [|eauto]. intros [H _]. apply contains_get in H. congruence. }
  apply contains_get in Ec.
  destruct (check_types_cases (map prop_type vs) 0 (ct_states (ci_ty c))) as [[Es Hs]|[Es [e Hs]]]; rewrite Hs.
  2:{ left. split; [tauto|eauto]. }
  destruct (check_types_cases (map ch_type cs) 0 (ct_chans (ci_ty c))) as [[Eh Hh]|[Eh [e Hh]]]; rewrite Hh.
  2:{ left. split; [tauto|eauto]. }
  right. split; [auto|].
  destruct (states_create_ok vs b (bi_st _ Hb)) as [shs [ms [E1 I1]]]. rewrite E1.
  destruct (channels_create_ok cs (with_states b ms) (bi_ch _ Hb)) as [chs [mc [E2 I2]]]. rewrite E2.
  cbn in I2 |- *.
  set (ob := mkObject shs chs (ci_handle c) timewarp_default).
  destruct (insert_ok _ ob (bi_obj _ Hb)) as [os [oh Hi]]. rewrite Hi.
  destruct (get (b_contracts b) (ci_handle c)) as [cd|] eqn:Hg; [|congruence].
  destruct (set (b_contracts b) (ci_handle c) _) as [cts|] eqn:Hset.
  2:{ apply set_none in Hset. congruence. }
  eexists oh, ob, _. split; [reflexivity|].
  constructor; cbn; auto; [eauto| |].
  - apply tm_ins_spec; auto. apply bi_st; auto.
  - apply tm_ins_spec; auto. apply bi_ch; auto.
Qed.

Lemma created_contracts b c vs cs oh ob b' h :
  binv b -> created b c vs cs oh ob b' ->
  get (b_contracts b') h =
    if index_eqb (ci_handle c) h
    then option_map (fun cd => mkCdata (cd_id cd) (set_insert oh (cd_objects cd))) (get (b_contracts b) h)
    else get (b_contracts b) h.
Proof.
  intros Hb Hc. destruct (cr_con _ _ _ _ _ _ _ Hc) as [cd [Hg Hs]].
  rewrite (set_get _ _ _ _ h (bi_con _ Hb) Hs).
  destruct (index_eqb_spec (ci_handle c) h); [subst; rewrite Hg|]; reflexivity.
Qed.

Lemma created_binv b c vs cs oh ob b' :
  binv b -> Forall channel_wt cs -> created b c vs cs oh ob b' -> binv b'.
Proof.
  intros Hb Hwt Hc.
  pose proof (fun h => created_contracts b c vs cs oh ob b' h Hb Hc) as Hcon.
  destruct Hc as [_ Hoc _ Hi [cd0 [Hcd0 Hset]] Hst Hch].
  pose proof (fun h' => insert_get (b_objects b) ob (b_objects b') oh h' (bi_obj _ Hb) Hi) as Hog.
  pose proof (insert_fresh _ _ _ _ (bi_obj _ Hb) Hi) as Hfresh.
  pose proof (insert_not_dead _ _ _ _ (bi_obj _ Hb) Hi) as Hnd.
  constructor.
  - eapply insert_inv; eauto using bi_obj.
  - eapply set_inv; eauto using bi_con.
  - eapply is_wf; eauto.
  - eapply is_wf; eauto.
  - intros t h v Hv. destruct (is_only _ _ _ _ _ Hst _ _ _ Hv) as [Hv'|[i [_ [_ Ht]]]]; auto.
    eapply bi_st_ty; eauto.
  - intros t h v Hv. destruct (is_only _ _ _ _ _ Hch _ _ _ Hv) as [Hv'|[i [Hx [_ Ht]]]].
    + eapply bi_ch_ty; eauto.
    + split; auto. rewrite Forall_forall in Hwt. apply Hwt. eapply nth_error_In; eauto.
  - intros h1 h2 c1 c2. rewrite !Hcon.
    assert (Hx : forall h c', (if index_eqb (ci_handle c) h
       then option_map (fun cd => mkCdata (cd_id cd) (set_insert oh (cd_objects cd))) (get (b_contracts b) h)
       else get (b_contracts b) h) = Some c' -> exists c'', get (b_contracts b) h = Some c'' /\ cd_id c'' = cd_id c').
    { intros h c'. destruct (index_eqb (ci_handle c) h); eauto.
      destruct (get (b_contracts b) h) as [c''|]; [|discriminate]. cbn. intros E; injection E as <-. eauto. }
    intros E1 E2 Ei. destruct (Hx _ _ E1) as [d1 [G1 I1]], (Hx _ _ E2) as [d2 [G2 I2]].
    eapply bi_ids; eauto. congruence.
  - intros o ob' Ho. rewrite Hog in Ho. destruct (index_eqb_spec oh o) as [<-|Hne].
    + injection Ho as <-. rewrite Hoc, Hcon, index_eqb_refl, Hcd0. cbn. eexists; split; [reflexivity|].
      cbn. apply set_insert_in; auto.
    + destruct (bi_obj_con _ Hb _ _ Ho) as [cd [Hg Hin]]. rewrite Hcon, Hg.
      destruct (index_eqb (ci_handle c) (o_contract ob')); cbn; eexists; split; try reflexivity; cbn; auto.
      apply set_insert_in; auto.
  - intros h cd o. rewrite Hcon.
    assert (Hold : forall cd', get (b_contracts b) h = Some cd' -> In o (cd_objects cd') ->
              dead (b_objects b') o \/ exists ob0, get (b_objects b') o = Some ob0 /\ o_contract ob0 = h).
    { intros cd' Hg Hin. destruct (bi_con_obj _ Hb _ _ _ Hg Hin) as [Hd|[ob0 [Hg0 He]]].
      - left. eapply dead_insert; eauto using bi_obj.
      - right. exists ob0. split; auto. rewrite Hog. destruct (index_eqb_spec oh o); [congruence|auto]. }
    destruct (index_eqb_spec (ci_handle c) h) as [<-|Hne]; [|eauto].
    rewrite Hcd0. cbn. intros E; injection E as <-. cbn. rewrite set_insert_in. intros [->|Hin]; [|eauto].
    right. exists ob. rewrite Hog, index_eqb_refl. auto.
  - intros h cd. rewrite Hcon. destruct (index_eqb (ci_handle c) h); [|eapply bi_nodup; eauto].
    destruct (get (b_contracts b) h) as [cd'|] eqn:Eg; [|discriminate]. cbn. intros E; injection E as <-.
    cbn. apply set_insert_nodup. eapply bi_nodup; eauto.
Qed.

(** *** object_remove *)
Lemma remove_states_gone b ids o :
  get (b_objects b) o = None ->
  remove_states b ids o = (match ids with [] => Ok tt | _ => Err EBindNoObject end, b).
Proof. intros H. destruct ids as [|id t]; cbn; auto. unfold bind_state. rewrite H. reflexivity. Qed.
Lemma remove_channels_gone b ids o :
  get (b_objects b) o = None ->
  remove_channels b ids o = (match ids with [] => Ok tt | _ => Err EBindNoObject end, b).
Proof. intros H. destruct ids as [|id t]; cbn; auto. unfold bind_channel. rewrite H. reflexivity. Qed.

Definition remove_result (b : baseline) (C : contract_ty) (o : index) : outcome unit :=
  match get (b_objects b) o with
  | None => Err EObjectDidNotExist
  | Some _ => if fieldless C then Ok tt else Err EBindNoObject
  end.

Lemma object_remove_spec b C o :
  ainv (b_objects b) ->
  object_remove b C o =
    (remove_result b C o, with_objects b (fst (aremove (b_objects b) o))).
Proof.
  intros Ha. unfold object_remove, remove_result.
  pose proof (remove_snd (b_objects b) o) as Hs.
  pose proof (remove_get (b_objects b) o o Ha) as Hg. rewrite index_eqb_refl in Hg.
  destruct (get (b_objects b) o) as [ob|] eqn:E.
  - destruct (aremove (b_objects b) o) as [os r]. cbn in Hs, Hg. subst r. cbn [fst].
    set (b1 := with_objects b os).
    assert (Hg1 : get (b_objects b1) o = None) by exact Hg.
    rewrite remove_states_gone by exact Hg1.
    unfold state_ids, chan_ids, fieldless.
    pose proof (ids_nil (ct_states C) (o_contract ob)) as H1.
    pose proof (ids_nil (ct_chans C) (o_contract ob)) as H2.
    destruct (ct_states C) as [|t1 l1].
    + rewrite (proj2 H1 eq_refl). rewrite remove_channels_gone by exact Hg1.
      destruct (ct_chans C) as [|t2 l2].
      * rewrite (proj2 H2 eq_refl). reflexivity.
      * destruct (iter_collect (t2 :: l2) (o_contract ob)); [|reflexivity].
        discriminate (proj1 H2 eq_refl).
    + destruct (iter_collect (t1 :: l1) (o_contract ob)); [|reflexivity].
      discriminate (proj1 H1 eq_refl).
  - rewrite remove_none by auto. cbn. rewrite with_objects_id. reflexivity.
Qed.

Lemma remove_binv b o : binv b -> binv (with_objects b (fst (aremove (b_objects b) o))).
Proof.
  intros Hb. pose proof (bi_obj _ Hb) as Ha. pose proof Hb as Hb'. destruct Hb.
  constructor; cbn; auto.
  - apply remove_inv; auto.
  - intros o' ob. rewrite remove_get by auto. destruct (index_eqb o o'); [discriminate|]. eauto.
  - intros h cd o' Hg Hin. destruct (bi_con_obj0 _ _ _ Hg Hin) as [Hd|[ob [Ho Hc]]].
    + left. apply dead_remove; auto.
    + destruct (index_eqb_spec o o') as [<-|Hne].
      * left. eapply removed_dead; eauto.
      * right. exists ob. split; auto. rewrite remove_get by auto.
        destruct (index_eqb_spec o o'); [congruence|auto].
Qed.

Lemma object_remove_binv b C o r b' : binv b -> object_remove b C o = (r, b') -> binv b' /\ r <> Panic.
Proof.
  intros Hb H. rewrite object_remove_spec in H by (apply bi_obj; auto). injection H as <- <-.
  split; [apply remove_binv; auto|]. unfold remove_result.
  destruct (get (b_objects b) o); [destruct (fieldless C)|]; discriminate.
Qed.

(** *** unregister_contract *)
Definition objs_removed (os os' : arena object) (ord : list index) : Prop :=
  ainv os' /\
  (forall o, get os' o = if existsb (index_eqb o) ord then None else get os o) /\
  (forall o, dead os o -> dead os' o) /\
  (forall o, In o ord -> get os o <> None -> dead os' o).

Lemma existsb_index_in o l : existsb (index_eqb o) l = true <-> In o l.
Proof.
  rewrite existsb_exists. split.
  - intros [x [Hx E]]. apply index_eqb_eq in E. subst; auto.
  - intros H. exists o. split; auto. apply index_eqb_refl.
Qed.

Lemma remove_all_spec C : forall ord b,
  ainv (b_objects b) -> NoDup ord ->
  (exists os', remove_all b C ord = (Ok tt, with_objects b os') /\ objs_removed (b_objects b) os' ord /\
     (forall o, In o ord -> get (b_objects b) o <> None) /\ (ord = [] \/ fieldless C = true)) \/
  ((exists o, In o ord /\ get (b_objects b) o = None) \/ (ord <> [] /\ fieldless C = false)) /\
   fst (remove_all b C ord) = Panic.
Proof.
  induction ord as [|o ord IH]; intros b Ha Hnd.
  - left. exists (b_objects b). cbn. rewrite with_objects_id. split; auto. split; [|split; [intros o []|auto]].
    split; [auto|]. split; [auto|]. split; [auto|intros o []].
  - inversion Hnd as [|? ? Hni Hnd']; subst. cbn [remove_all].
    rewrite object_remove_spec by auto. unfold remove_result.
    destruct (get (b_objects b) o) as [ob|] eqn:Eo.
    2:{ right. split; [left; exists o; cbn; auto|]. reflexivity. }
    destruct (fieldless C) eqn:Ef.
    2:{ right. split; [right; split; [discriminate|auto]|]. reflexivity. }
    set (b1 := with_objects b (fst (aremove (b_objects b) o))).
    assert (Ha1 : ainv (b_objects b1)) by (apply remove_inv; auto).
    assert (Hg1 : forall x, get (b_objects b1) x = if index_eqb o x then None else get (b_objects b) x)
      by (intros; apply remove_get; auto).
    destruct (IH b1 Ha1 Hnd') as [[os' [E [[Hai [Hg [Hd1 Hd2]]] [Hl Hf]]]]|[Hbad E]].
    + left. exists os'. split; [exact E|]. split; [|split; [|auto]].
      * split; [auto|]. split; [|split].
        -- intros x. rewrite Hg, Hg1. cbn [existsb].
           destruct (index_eqb_spec x o) as [->|Hne]; cbn.
           ++ rewrite index_eqb_refl. destruct (existsb _ _); auto.
           ++ destruct (existsb (index_eqb x) ord); auto. destruct (index_eqb_spec o x); [congruence|auto].
        -- intros x Hx. apply Hd1. apply dead_remove; auto.
        -- intros x [<-|Hx] Hn.
           ++ apply Hd1. eapply removed_dead; eauto.
           ++ apply Hd2; auto.
      * intros x [<-|Hx]; [congruence|]. specialize (Hl x Hx). rewrite Hg1 in Hl.
        destruct (index_eqb o x); congruence.
    + right. split; [|exact E]. destruct Hbad as [[x [Hx Hn]]|[_ Hf]].
      * left. exists x. split; [right; auto|]. rewrite Hg1 in Hn.
        destruct (index_eqb_spec o x); [congruence|auto].
      * congruence.
Qed.

(** Exact outcome of [unregister_contract]. *)
Definition unregisters (b : baseline) (C : contract_ty) (h : index) (b' : baseline) : Prop :=
  exists cd os', get (b_contracts b) h = Some cd /\ cd_id cd = ct_id C /\
    objs_removed (b_objects b) os' (cd_objects cd) /\
    (forall o, In o (cd_objects cd) -> get (b_objects b) o <> None) /\
    (cd_objects cd = [] \/ fieldless C = true) /\
    b_kind b' = b_kind b /\ b_objects b' = os' /\ b_states b' = b_states b /\ b_channels b' = b_channels b /\
    ainv (b_contracts b') /\
    (forall h', get (b_contracts b') h' = if index_eqb h h' then None else get (b_contracts b) h') /\
    (forall h', dead (b_contracts b) h' -> dead (b_contracts b') h') /\ dead (b_contracts b') h.

Lemma objs_removed_perm os os' l l' :
  Permutation l l' -> objs_removed os os' l -> objs_removed os os' l'.
Proof.
  intros P [H1 [H2 [H3 H4]]]. split; auto. split; [|split; auto].
  - intros o. rewrite H2.
    assert (E : existsb (index_eqb o) l = existsb (index_eqb o) l').
    { apply eq_true_iff_eq. rewrite !existsb_index_in. split; apply Permutation_in; auto using Permutation_sym. }
    rewrite E. reflexivity.
  - intros o Hin. apply H4. eapply Permutation_in; [apply Permutation_sym|]; eauto.
Qed.

Lemma unregister_spec b C h ord :
  binv b ->
  (forall cd, get (b_contracts b) h = Some cd -> Permutation ord (cd_objects cd)) ->
  (get (b_contracts b) h = None /\ unregister_contract b C h ord = (Err ENoContractToUnregister, b)) \/
  (exists cd, get (b_contracts b) h = Some cd /\
     ((cd_id cd <> ct_id C /\ unregister_contract b C h ord = (Err EHandleContractMismatch, b)) \/
      (cd_id cd = ct_id C /\
        ((exists b', unregister_contract b C h ord = (Ok tt, b') /\ unregisters b C h b') \/
         (((exists o, In o (cd_objects cd) /\ get (b_objects b) o = None) \/
           (cd_objects cd <> [] /\ fieldless C = false)) /\
          fst (unregister_contract b C h ord) = Panic))))).
Proof.
  intros Hb Hord. unfold unregister_contract.
  destruct (get (b_contracts b) h) as [cd|] eqn:Eg; [|left; auto]. right. exists cd. split; auto.
  specialize (Hord cd eq_refl).
  destruct (contract_id_eqb_spec (cd_id cd) (ct_id C)) as [Ei|Ei]; cbn [negb]; [right|left; auto].
  split; auto.
  destruct (set (b_contracts b) h (mkCdata (cd_id cd) [])) as [cts|] eqn:Es.
  2:{ apply set_none in Es. congruence. }
  assert (Hnd : NoDup ord).
  { eapply Permutation_NoDup; [apply Permutation_sym; eauto|]. eapply bi_nodup; eauto. }
  destruct (remove_all_spec C ord (with_contracts b cts) (bi_obj _ Hb) Hnd)
    as [[os' [E [Hrm [Hl Hf]]]]|[Hbad E]].
  - left. rewrite E. eexists. split; [reflexivity|].
    pose proof (set_inv _ _ _ _ (bi_con _ Hb) Es) as Hcts.
    assert (Hcg : forall h', get cts h' = if index_eqb h h' then Some (mkCdata (cd_id cd) []) else get (b_contracts b) h')
      by (intros; eapply set_get; eauto using bi_con).
    exists cd, os'. cbn in *. repeat (split; [auto; fail|]).
    split; [eapply objs_removed_perm; eauto|].
    split; [intros o Ho; apply Hl; eapply Permutation_in; [apply Permutation_sym|]; eauto|].
    split.
    { destruct Hf as [->|]; auto. left. apply Permutation_nil; auto. }
    repeat (split; [reflexivity|]).
    split; [apply remove_inv; auto|]. split; [|split].
    + intros h'. rewrite remove_get by auto. rewrite Hcg. destruct (index_eqb h h'); auto.
    + intros h' Hd. apply dead_remove; auto. exact (dead_set _ _ _ _ _ (bi_con _ Hb) Es Hd).
    + eapply removed_dead with (v := mkCdata (cd_id cd) []); auto. rewrite Hcg, index_eqb_refl. reflexivity.
  - right. cbn in Hbad. split.
    + destruct Hbad as [[o [Ho Hn]]|[Hne Hf]].
      * left. exists o. split; auto. eapply Permutation_in; eauto.
      * right. split; auto. intros E0. rewrite E0 in Hord. apply Permutation_sym, Permutation_nil in Hord. congruence.
    + destruct (remove_all (with_contracts b cts) C ord) as [[u|e|] b2]; cbn in *; congruence.
Qed.

Lemma unregister_binv b C h b' : binv b -> unregisters b C h b' -> binv b'.
Proof.
  intros Hb [cd [os' [Hg [Hid [[Ho1 [Ho2 [Ho3 Ho4]]] [Hall [_ [_ [Eo [Es [Ec [Hci [Hcg [_ _]]]]]]]]]]]]]]. 
  constructor; rewrite ?Eo, ?Es, ?Ec; auto; try apply Hb.
  - intros h1 h2 c1 c2. rewrite !Hcg. destruct (index_eqb h h1); [discriminate|].
    destruct (index_eqb h h2); [discriminate|]. apply Hb.
  - intros o ob. rewrite Ho2. destruct (existsb (index_eqb o) (cd_objects cd)) eqn:E; [discriminate|].
    intros Hob. destruct (bi_obj_con _ Hb _ _ Hob) as [cd' [Hc Hin]]. exists cd'. split; auto.
    rewrite Hcg. destruct (index_eqb_spec h (o_contract ob)) as [Eh|]; auto.
    exfalso. rewrite <- Eh, Hg in Hc. injection Hc as <-. apply existsb_index_in in Hin. congruence.
  - intros h' cd' o. rewrite Hcg. destruct (index_eqb_spec h h') as [|Hne]; [discriminate|].
    intros Hc Hin. destruct (bi_con_obj _ Hb _ _ _ Hc Hin) as [Hd|[ob [Hob Heq]]]; [left; auto|].
    right. exists ob. split; auto. rewrite Ho2. destruct (existsb (index_eqb o) (cd_objects cd)) eqn:E; auto.
    exfalso. apply existsb_index_in in E. destruct (bi_con_obj _ Hb _ _ _ Hg E) as [[Hn _]|[ob' [Hob' Heq']]]; congruence.
  - intros h' cd'. rewrite Hcg. destruct (index_eqb h h'); [discriminate|]. apply Hb.
Qed.

(** *** writes *)
Lemma state_set_spec b h v :
  binv b ->
  (tm_look (b_states b) (prop_type v) h = None /\ exists e, state_set b h v = (Err e, b)) \/
  (tm_look (b_states b) (prop_type v) h <> None /\ exists m', state_set b h v = (Ok tt, with_states b m') /\
     tm_wf m' /\ forall t' h', tm_look m' t' h' =
        if tm_same (prop_type v) h t' h' then Some v else tm_look (b_states b) t' h').
Proof.
  intros Hb. unfold state_set.
  destruct (b_states b (prop_type v)) as [a|] eqn:E.
  2:{ left. unfold tm_look. rewrite E. eauto. }
  assert (Hlk : tm_look (b_states b) (prop_type v) h = get a h) by (unfold tm_look; rewrite E; reflexivity).
  destruct (set a h v) as [a'|] eqn:Es.
  - right. destruct (tm_write_spec _ _ _ _ _ _ (bi_st _ Hb) E Es) as [Hw [Hn Hl]].
    split; auto. eexists; eauto.
  - left. apply set_none in Es. rewrite Hlk. eauto.
Qed.

Lemma state_set_binv b h v r b' : binv b -> state_set b h v = (r, b') -> binv b' /\ r <> Panic.
Proof.
  intros Hb H. destruct (state_set_spec b h v Hb) as [[_ [e E]]|[_ [m' [E [Hw Hl]]]]]; rewrite E in H;
    injection H as <- <-; (split; [|discriminate]); auto.
  destruct Hb. constructor; cbn; auto.
  intros t h' v'. rewrite Hl. destruct (tm_same (prop_type v) h t h') eqn:Ee; [|eauto].
  apply tm_same_true in Ee. destruct Ee as [<- <-]. congruence.
Qed.

Lemma channel_set_spec b t h ks :
  binv b ->
  (tm_look (b_channels b) t h = None /\ exists e, channel_set_keys b t h ks = (Err e, b)) \/
  (exists c m', tm_look (b_channels b) t h = Some c /\ channel_set_keys b t h ks = (Ok tt, with_channels b m') /\
     tm_wf m' /\ forall t' h', tm_look m' t' h' =
        if tm_same t h t' h' then Some (mkChannel (ch_type c) ks) else tm_look (b_channels b) t' h').
Proof.
  intros Hb. unfold channel_set_keys.
  destruct (b_channels b t) as [a|] eqn:E.
  2:{ left. unfold tm_look. rewrite E. eauto. }
  assert (Hlk : tm_look (b_channels b) t h = get a h) by (unfold tm_look; rewrite E; reflexivity).
  rewrite Hlk.
  destruct (get a h) as [c|] eqn:Eg; [|left; eauto].
  destruct (set a h (keyframes_set c ks)) as [a'|] eqn:Es.
  - right. destruct (tm_write_spec _ _ _ _ _ _ (bi_ch _ Hb) E Es) as [Hw [Hn Hl]].
    exists c. eexists; eauto.
  - apply set_none in Es. congruence.
Qed.

Lemma channel_set_binv b t h ks r b' :
  binv b -> Forall (fun k => prop_type (k_value k) = t) ks ->
  channel_set_keys b t h ks = (r, b') -> binv b' /\ r <> Panic.
Proof.
  intros Hb Hk H. destruct (channel_set_spec b t h ks Hb) as [[_ [e E]]|[c [m' [Hc [E [Hw Hl]]]]]]; rewrite E in H;
    injection H as <- <-; (split; [|discriminate]); auto.
  pose proof (bi_ch_ty _ Hb _ _ _ Hc) as [Hty _].
  destruct Hb. constructor; cbn; auto.
  intros t' h' v'. rewrite Hl. destruct (tm_same t h t' h') eqn:Ee; [|eauto].
  apply tm_same_true in Ee. destruct Ee as [<- <-]. intros Ei; injection Ei as <-. cbn.
  split; auto. unfold channel_wt; cbn. rewrite Hty. exact Hk.
Qed.

Lemma set_warp_spec b o w :
  binv b ->
  (get (b_objects b) o = None /\ object_set_warp b o w = (Err ENoSuchHandle, b)) \/
  (exists ob os, get (b_objects b) o = Some ob /\
     object_set_warp b o w = (Ok tt, with_objects b os) /\
     set (b_objects b) o (mkObject (o_states ob) (o_channels ob) (o_contract ob) w) = Some os /\
     ainv os /\ (forall o', dead (b_objects b) o' -> dead os o') /\
     forall o', get os o' = if index_eqb o o'
        then Some (mkObject (o_states ob) (o_channels ob) (o_contract ob) w) else get (b_objects b) o').
Proof.
  intros Hb. unfold object_set_warp. destruct (get (b_objects b) o) as [ob|] eqn:E; [|left; auto].
  right. destruct (set (b_objects b) o _) as [os|] eqn:Es.
  - exists ob, os. split; [auto|]. split; [auto|]. split; [auto|]. split; [|split].
    + eapply set_inv; eauto using bi_obj.
    + intros o' Hd. exact (dead_set _ _ _ _ _ (bi_obj _ Hb) Es Hd).
    + intros o'. eapply set_get; eauto using bi_obj.
  - apply set_none in Es. congruence.
Qed.

Lemma set_warp_binv b o w r b' : binv b -> object_set_warp b o w = (r, b') -> binv b' /\ r <> Panic.
Proof.
  intros Hb H. destruct (set_warp_spec b o w Hb) as [[_ E]|[ob [os [Ho [E [_ [Ha [Hd Hg]]]]]]]]; rewrite E in H;
    injection H as <- <-; (split; [|discriminate]); auto.
  destruct Hb. constructor; cbn; auto.
  - intros o' ob'. rewrite Hg. destruct (index_eqb_spec o o') as [<-|]; [|eauto].
    intros Ei; injection Ei as <-. cbn. eauto.
  - intros h cd o' Hc Hin. destruct (bi_con_obj0 _ _ _ Hc Hin) as [Hd'|[ob' [Ho' He]]]; [left; auto|].
    right. rewrite Hg. destruct (index_eqb_spec o o') as [<-|]; [|eauto].
    rewrite Ho in Ho'. injection Ho' as <-. eexists; split; [reflexivity|]. auto.
Qed.

(** *** every step *)
Lemma bstep_binv b op r b' : binv b -> bop_ok b op -> bstep b op = (r, b') -> r <> Panic -> binv b'.
Proof.
  intros Hb Hok Hs Hnp. destruct op; cbn [bstep] in Hs; unfold ret_map in Hs.
  - destruct (register_contract b C) as [r0 b0] eqn:E. cbn in Hs. injection Hs as <- <-.
    eapply register_binv; eauto.
  - destruct (unregister_spec b C h ord Hb Hok) as [[_ E]|[cd [_ [[_ E]|[_ [[b1 [E Hu]]|[_ E]]]]]]].
    + rewrite E in Hs. injection Hs as <- <-. auto.
    + rewrite E in Hs. injection Hs as <- <-. auto.
    + rewrite E in Hs. injection Hs as <- <-. eapply unregister_binv; eauto.
    + rewrite E in Hs. cbn in Hs. injection Hs as <- <-. congruence.
  - destruct (create_spec b c vs cs Hb) as [[_ [e E]]|[_ [oh [ob [b1 [E Hc]]]]]]; rewrite E in Hs;
      injection Hs as <- <-; auto. eapply created_binv; eauto.
  - destruct (object_remove b C o) as [r0 b0] eqn:E. cbn in Hs. injection Hs as <- <-.
    eapply object_remove_binv; eauto.
  - destruct (state_set b h v) as [r0 b0] eqn:E. cbn in Hs. injection Hs as <- <-.
    eapply state_set_binv; eauto.
  - destruct (channel_set_keys b t h ks) as [r0 b0] eqn:E. cbn in Hs. injection Hs as <- <-.
    eapply channel_set_binv; eauto.
  - destruct (object_set_warp b o w) as [r0 b0] eqn:E. cbn in Hs. injection Hs as <- <-.
    eapply set_warp_binv; eauto.
Qed.

Lemma bsteps_binv b ops b' : binv b -> bsteps b ops b' -> binv b'.
Proof. intros Hb Hs. induction Hs; auto. apply IHHs. eapply bstep_binv; eauto. Qed.

Lemma reach_binv b : reach b -> binv b.
Proof. intros [k [ops Hs]]. eapply bsteps_binv; eauto using binv_new. Qed.
