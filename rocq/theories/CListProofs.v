From Verif Require Export CListSpec BaseProofs.
From Coq Require Import Lia.

Lemma set_same {A} (s : nat -> option A) x o : set s x o x = o.
Proof. unfold set. now rewrite Nat.eqb_refl. Qed.
Lemma set_other {A} (s : nat -> option A) x o z : z <> x -> set s x o z = s z.
Proof. intros N. unfold set. destruct (Nat.eqb_spec z x); congruence. Qed.

Lemma look_lt H a c : look H a = Some c -> a < length H.
Proof. unfold look. destruct (nth_error H a) eqn:E; [|discriminate]. intros _. apply nth_error_Some. congruence. Qed.
Lemma look_free H a b : look (free H a) b = if a =? b then None else look H b.
Proof.
  unfold look, free. rewrite nth_error_list_set. destruct (Nat.eqb_spec a b) as [->|N]; [|reflexivity].
  destruct (b <? length H) eqn:L; [reflexivity|]. 
  destruct (nth_error H b); reflexivity.
Qed.
Lemma look_put H a c b : a < length H -> look (put H a c) b = if a =? b then Some c else look H b.
Proof.
  intros L. unfold look, put. rewrite nth_error_list_set. destruct (Nat.eqb_spec a b) as [->|N]; [|reflexivity].
  apply Nat.ltb_lt in L. rewrite L. reflexivity.
Qed.
Lemma look_alloc H c b : look (H ++ [Some c]) b = if length H =? b then Some c else look H b.
Proof.
  unfold look. destruct (Nat.eqb_spec (length H) b) as [<-|N].
  - rewrite nth_error_app2, Nat.sub_diag by lia. reflexivity.
  - destruct (Nat.lt_ge_cases b (length H)).
    + now rewrite nth_error_app1.
    + rewrite (proj2 (nth_error_None H b)) by lia. rewrite (proj2 (nth_error_None _ b)); [reflexivity|rewrite app_length; cbn; lia].
Qed.
Lemma free_length H a : length (free H a) = length H. Proof. apply list_set_length. Qed.
Lemma put_length H a c : length (put H a c) = length H. Proof. apply list_set_length. Qed.

Definition typed (t : prim) (k : keyframe) : Prop := key_type k = TPrim t.
Lemma typed_val t k : typed t k -> exists v, k = mkKey (PPrim v) (k_time k) /\ dynprim_type v = TPrim t.
Proof.
  destruct k as [[v|v] z]; unfold typed, key_type; cbn; intros T; [eauto|]. destruct v; discriminate.
Qed.

Definition addr (h : handle) : option nat :=
  match h with
  | HVal _ (PBox a) | HKey _ (PBox a) | HChan _ (PBox a) => Some a
  | HVec v => v_ptr v
  | _ => None
  end.
Definition holds (H : heap) (th : thing) (h : handle) : Prop :=
  match th, h with
  | Value v, HVal t (PBox a) => look H a = Some (LVal v) /\ dynprim_type v = TPrim t
  | Key k, HKey t (PBox a) => look H a = Some (LKf k) /\ typed t k
  | Keys t ks, HVec v =>
      v_ty v = t /\ v_len v = length ks /\ Forall (typed t) ks /\
      match v_ptr v with
      | None => ks = [] /\ v_cap v = 0
      | Some a => look H a = Some (LBuf ks (v_cap v)) /\ length ks <= v_cap v
      end
  | Chan t ks, HChan t' (PBox a) => t' = t /\ Forall (typed t) ks /\ look H a = Some (LChan (mkChannel (TPrim t) ks))
  | _, _ => False
  end.
Definition own_at (E : env) (x a : nat) : Prop := exists h, E x = Some h /\ addr h = Some a.
Record rel (s : store) (E : env) (H : heap) : Prop := {
  r_holds : forall x, match s x, E x with
                      | Some th, Some h => holds H th h
                      | None, None => True
                      | _, _ => False
                      end;
  r_inj : forall x y a, own_at E x a -> own_at E y a -> x = y;
  r_live : forall a c, look H a = Some c -> (exists x, own_at E x a) \/ exists ps, c = LRefs ps }.

Lemma holds_look H H' th h : holds H th h -> (forall a, addr h = Some a -> look H' a = look H a) -> holds H' th h.
Proof.
  intros P L. destruct th, h as [t' [a| | |]|t' [a| | |]|w|t' [a| | |]]; cbn in *; try contradiction.
  1,2,4: rewrite L by reflexivity; exact P.
  destruct P as (A & B & F & C). repeat split; auto. destruct (v_ptr w) as [a|]; [|exact C]. rewrite L by reflexivity. exact C.
Qed.
Lemma holds_addr H th h a : holds H th h -> addr h = Some a -> exists c, look H a = Some c /\ forall ps, c <> LRefs ps.
Proof.
  intros P L. destruct th, h as [t' [a'| | |]|t' [a'| | |]|w|t' [a'| | |]]; cbn in *; try contradiction.
  1,2: injection L as ->; destruct P as [P _]; rewrite P; eexists; split; [reflexivity|discriminate].
  - destruct P as (_ & _ & _ & P). rewrite L in P. destruct P as [P _]. rewrite P. eexists; split; [reflexivity|discriminate].
  - injection L as ->. destruct P as (_ & _ & P). rewrite P. eexists; split; [reflexivity|discriminate].
Qed.

Lemma rel_look s E H x h a : rel s E H -> E x = Some h -> addr h = Some a -> exists th c, s x = Some th /\ holds H th h /\ look H a = Some c /\ forall ps, c <> LRefs ps.
Proof.
  intros R Ex A. pose proof (r_holds _ _ _ R x) as P. rewrite Ex in P. destruct (s x) as [th|]; [|contradiction].
  destruct (holds_addr _ _ _ _ P A) as (c & L & N). eauto 6.
Qed.

(** [y]'s thing is given up (or was not there), [x] gets a new one. *)
Lemma rel_upd s E H x y th h H' : rel s E H -> holds H' th h ->
  (forall a, addr h = Some a -> length H <= a \/ own_at E y a \/ own_at E x a) ->
  (forall z a, z <> x -> z <> y -> own_at E z a -> look H' a = look H a) ->
  (forall a c, look H' a = Some c -> addr h = Some a \/ look H a = Some c /\ ~ own_at E x a /\ ~ own_at E y a) ->
  rel (set (set s y None) x (Some th)) (set (set E y None) x (Some h)) H'.
Proof.
  intros R P F K L.
  assert (Ez : forall z, z <> x -> z <> y -> set (set E y None) x (Some h) z = E z) by (intros; rewrite !set_other; auto).
  assert (Old : forall z a, own_at E z a -> a < length H).
  { intros z a (h0 & E0 & A0). destruct (rel_look _ _ _ _ _ _ R E0 A0) as (_ & c & _ & _ & L0 & _). exact (look_lt _ _ _ L0). }
  assert (Own : forall z a, own_at (set (set E y None) x (Some h)) z a -> z = x /\ addr h = Some a \/ z <> x /\ z <> y /\ own_at E z a).
  { intros z a (h' & E' & A'). destruct (Nat.eq_dec z x) as [->|Nx]; [rewrite set_same in E'; injection E' as <-; auto|].
    rewrite set_other in E' by auto. destruct (Nat.eq_dec z y) as [->|Ny]; [rewrite set_same in E'; discriminate|].
    rewrite set_other in E' by auto. right. repeat split; auto. exists h'. auto. }
  constructor.
  - intros z. destruct (Nat.eq_dec z x) as [->|Nx]; [rewrite !set_same; exact P|]. rewrite !(set_other _ x _ z) by auto.
    destruct (Nat.eq_dec z y) as [->|Ny]; [now rewrite !set_same|]. rewrite !set_other by auto.
    pose proof (r_holds _ _ _ R z) as Q. destruct (s z) as [th'|] eqn:Sz, (E z) as [h'|] eqn:Ez'; auto.
    apply (holds_look H); [exact Q|]. intros a A. apply (K z); auto. exists h'. auto.
  - intros z w a O1 O2. destruct (Own z a O1) as [[-> A1]|(N1 & M1 & Q1)], (Own w a O2) as [[-> A2]|(N2 & M2 & Q2)]; auto.
    + exfalso. destruct (F a A1) as [G|[G|G]]; [apply Old in Q2; lia| |]; apply (r_inj _ _ _ R _ _ _ Q2) in G; congruence.
    + exfalso. destruct (F a A2) as [G|[G|G]]; [apply Old in Q1; lia| |]; apply (r_inj _ _ _ R _ _ _ Q1) in G; congruence.
    + exact (r_inj _ _ _ R _ _ _ Q1 Q2).
  - intros a c Lc. destruct (L a c Lc) as [A|(Lo & Nx & Ny)].
    + left. exists x. exists h. split; [apply set_same|exact A].
    + destruct (r_live _ _ _ R a c Lo) as [[z O]|]; [|auto]. left. exists z. destruct O as (h' & E' & A'). exists h'. split; [|exact A'].
      rewrite Ez; auto; intros ->; [apply Nx|apply Ny]; exists h'; auto.
Qed.
Lemma rel_drop s E H x H' : rel s E H ->
  (forall z a, z <> x -> own_at E z a -> look H' a = look H a) ->
  (forall a c, look H' a = Some c -> look H a = Some c /\ ~ own_at E x a) ->
  rel (set s x None) (set E x None) H'.
Proof.
  intros R K L. constructor.
  - intros z. destruct (Nat.eq_dec z x) as [->|Nx]; [now rewrite !set_same|]. rewrite !set_other by auto.
    pose proof (r_holds _ _ _ R z) as Q. destruct (s z) as [th'|] eqn:Sz, (E z) as [h'|] eqn:Ez'; auto.
    apply (holds_look H); [exact Q|]. intros a A. apply (K z); auto. exists h'. auto.
  - assert (O : forall z a, own_at (set E x None) z a -> own_at E z a).
    { intros z a (h & Ez & A). exists h. split; [|exact A]. destruct (Nat.eq_dec z x) as [->|N]; [rewrite set_same in Ez; discriminate|].
      now rewrite set_other in Ez. }
    intros z w a O1 O2. exact (r_inj _ _ _ R _ _ _ (O _ _ O1) (O _ _ O2)).
  - intros a c Lc. destruct (L a c Lc) as (Lo & Nx). destruct (r_live _ _ _ R a c Lo) as [[z O]|]; [|auto].
    left. exists z. destruct O as (h' & E' & A'). exists h'. split; [|exact A']. rewrite set_other; auto. intros ->. apply Nx. exists h'. auto.
Qed.
(** Only pointer lists are allocated. *)
Lemma rel_refs s E H H' : rel s E H -> (forall a c, look H a = Some c -> look H' a = Some c) ->
  (forall a c, look H' a = Some c -> look H a = Some c \/ exists ps, c = LRefs ps) -> rel s E H'.
Proof.
  intros R K L. constructor.
  - intros z. pose proof (r_holds _ _ _ R z) as Q. destruct (s z) as [th'|] eqn:Sz, (E z) as [h'|] eqn:Ez'; auto.
    apply (holds_look H); [exact Q|]. intros a A. destruct (rel_look _ _ _ _ _ _ R Ez' A) as (_ & c & _ & _ & Lo & _).
    rewrite Lo. auto.
  - apply (r_inj _ _ _ R).
  - intros a c Lc. destruct (L a c Lc) as [Lo|]; [exact (r_live _ _ _ R a c Lo)|auto].
Qed.

Lemma rel_ext s E H s' E' : rel s E H -> (forall z, s' z = s z) -> (forall z, E' z = E z) -> rel s' E' H.
Proof.
  intros R A B.
  assert (O : forall z a, own_at E' z a <-> own_at E z a) by (intros z a; unfold own_at; now rewrite B).
  constructor.
  - intros x. rewrite A, B. apply (r_holds _ _ _ R).
  - intros x y a. rewrite !O. apply (r_inj _ _ _ R).
  - intros a c L. destruct (r_live _ _ _ R a c L) as [[x Q]|]; [left; exists x; now apply O|auto].
Qed.
Lemma rel_nothing : rel nothing nothing [].
Proof.
  constructor; [intros x; exact I|intros x y a (h & Eh & _); discriminate|].
  intros a c L. unfold look in L. destruct a; discriminate.
Qed.

(** Inversion of [rel] at a variable. *)
Lemma rel_value s E H x v : rel s E H -> s x = Some (Value v) ->
  exists t a, E x = Some (HVal t (PBox a)) /\ look H a = Some (LVal v) /\ dynprim_type v = TPrim t.
Proof.
  intros R S. pose proof (r_holds _ _ _ R x) as P. rewrite S in P. destruct (E x) as [h|]; [|contradiction].
  destruct h as [t' [a| | |]|t' [a| | |]|w|t' [a| | |]]; cbn in P; try contradiction. destruct P. eauto 6.
Qed.
Lemma rel_key s E H x k : rel s E H -> s x = Some (Key k) ->
  exists t a, E x = Some (HKey t (PBox a)) /\ look H a = Some (LKf k) /\ typed t k.
Proof.
  intros R S. pose proof (r_holds _ _ _ R x) as P. rewrite S in P. destruct (E x) as [h|]; [|contradiction].
  destruct h as [t' [a| | |]|t' [a| | |]|w|t' [a| | |]]; cbn in P; try contradiction. destruct P. eauto 6.
Qed.
Lemma rel_keys s E H x t ks : rel s E H -> s x = Some (Keys t ks) ->
  exists v, E x = Some (HVec v) /\ v_ty v = t /\ v_len v = length ks /\ Forall (typed t) ks /\
    match v_ptr v with
    | None => ks = [] /\ v_cap v = 0
    | Some a => look H a = Some (LBuf ks (v_cap v)) /\ length ks <= v_cap v
    end.
Proof.
  intros R S. pose proof (r_holds _ _ _ R x) as P. rewrite S in P. destruct (E x) as [h|]; [|contradiction].
  destruct h as [t' [a| | |]|t' [a| | |]|w|t' [a| | |]]; cbn in P; try contradiction. eauto.
Qed.
Lemma rel_chan s E H x t ks : rel s E H -> s x = Some (Chan t ks) ->
  exists a, E x = Some (HChan t (PBox a)) /\ Forall (typed t) ks /\ look H a = Some (LChan (mkChannel (TPrim t) ks)).
Proof.
  intros R S. pose proof (r_holds _ _ _ R x) as P. rewrite S in P. destruct (E x) as [h|]; [|contradiction].
  destruct h as [t' [a| | |]|t' [a| | |]|w|t' [a| | |]]; cbn in P; try contradiction. destruct P as (-> & ? & ?). eauto.
Qed.
Lemma rel_none s E H x : rel s E H -> s x = None -> E x = None.
Proof. intros R S. pose proof (r_holds _ _ _ R x) as P. rewrite S in P. destruct (E x); [contradiction|reflexivity]. Qed.

Lemma slots_ok H v ks : v_len v = length ks ->
  match v_ptr v with
  | None => ks = [] /\ v_cap v = 0
  | Some a => look H a = Some (LBuf ks (v_cap v)) /\ length ks <= v_cap v
  end -> slots_of H v = Some ks.
Proof.
  intros L P. unfold slots_of. destruct (v_ptr v) as [a|].
  - destruct P as [-> _]. rewrite L, Nat.leb_refl, Nat.eqb_refl. reflexivity.
  - destruct P as [-> ->]. rewrite L. reflexivity.
Qed.
Lemma kf_ok H t p k : kf_at H p = Some k -> typed t k -> kf_of H t p = Some k.
Proof. intros K T. unfold kf_of. rewrite K. unfold typed, key_type in T. rewrite T. destruct (ptype_eqb_spec (TPrim t) (TPrim t)); congruence. Qed.
Lemma owned_kf_ok H t a k : look H a = Some (LKf k) -> typed t k -> owned_kf H t (PBox a) = Some (a, k).
Proof. intros L T. unfold owned_kf. rewrite (kf_ok _ t _ k); auto. cbn. now rewrite L. Qed.
Lemma owned_val_ok H t a v : look H a = Some (LVal v) -> dynprim_type v = TPrim t -> owned_val H t (PBox a) = Some (a, v).
Proof. intros L T. unfold owned_val. rewrite L, T. destruct (ptype_eqb_spec (TPrim t) (TPrim t)); congruence. Qed.
Lemma chan_ok H t a c : look H a = Some (LChan c) -> ch_type c = TPrim t -> chan_of H t (PBox a) = Some (a, c).
Proof. intros L T. unfold chan_of. rewrite L, T. destruct (ptype_eqb_spec (TPrim t) (TPrim t)); congruence. Qed.

Lemma read_key_ok srt H t p k : kf_at H p = Some k -> typed t k ->
  exists v, shown k = Some (v, k_time k) /\ read_key srt H t p = Ran (v, k_time k, H).
Proof.
  intros K T. destruct (typed_val _ _ T) as (v & Ek & _). exists v. split; [rewrite Ek; reflexivity|].
  pose proof (kf_ok H t p k K T) as F. unfold read_key. cbn [step]. rewrite F. cbn [val_at]. rewrite K.
  destruct k as [kv z]. cbn [k_time] in Ek |- *. injection Ek as ->. cbn [step]. rewrite F. reflexivity.
Qed.
Lemma read_refs_ok srt H t r a n : forall ks i, look H r = Some (LRefs (map (PChan a) (seq 0 n))) ->
  (forall j k, nth_error ks j = Some k -> kf_at H (PChan a (i + j)) = Some k /\ typed t k) -> i + length ks = n ->
  exists l, shown_all ks = Some l /\ read_refs srt H t (Some r) i (length ks) = Ran (l, H).
Proof.
  induction ks as [|k ks IH]; intros i L K N; cbn [shown_all length read_refs]; [eauto|].
  destruct (K 0 k eq_refl) as [K0 T]. rewrite Nat.add_0_r in K0.
  destruct (read_key_ok srt H t _ k K0 T) as (v & Sh & Rd).
  destruct (IH (S i)) as (l & Sa & Rr); [exact L| |cbn in N; lia|].
  { intros j k' J. replace (S i + j) with (i + S j) by lia. now apply K. }
  rewrite Sh, Sa. eexists. split; [reflexivity|]. unfold call_ptr. cbn [step]. rewrite L.
  assert (Nn : nth_error (map (PChan a) (seq 0 n)) i = Some (PChan a i)).
  { rewrite nth_error_map. cbn in N. rewrite (nth_error_nth' _ 0) by (rewrite seq_length; lia). rewrite seq_nth by lia. reflexivity. }
  rewrite Nn, Rd, Rr. reflexivity.
Qed.
Lemma firstn_len {A} (l : list A) n : n = length l -> firstn n l = l.
Proof. intros ->. apply firstn_all. Qed.
Lemma list_set_split {A} (l : list A) i x : i < length l -> list_set l i x = firstn i l ++ x :: skipn (S i) l.
Proof.
  revert i. induction l as [|h l IH]; intros i L; [cbn in L; lia|]. destruct i; [reflexivity|].
  cbn [list_set firstn skipn app]. f_equal. rewrite IH by (cbn in L; lia). reflexivity.
Qed.
Lemma Forall_list_set {A} (P : A -> Prop) l i x : Forall P l -> P x -> Forall P (list_set l i x).
Proof. intros F Px. revert i. induction F; intros [|i]; cbn [list_set]; constructor; auto. Qed.

Ltac hlook := repeat first [rewrite look_free | rewrite look_alloc | rewrite look_put by (rewrite ?free_length, ?put_length; eauto using look_lt)].
Ltac eqbs := repeat match goal with |- context [?a =? ?b] => destruct (Nat.eqb_spec a b); subst | H : context [?a =? ?b] |- _ => destruct (Nat.eqb_spec a b); subst end.

Section Sim.
Context (srt : list keyframe -> list keyframe) (srt_ok : sorts srt).

Lemma own_lt s E H x a : rel s E H -> own_at E x a -> a < length H.
Proof. intros R (h & Eh & A). destruct (rel_look _ _ _ _ _ _ R Eh A) as (_ & c & _ & _ & L & _). exact (look_lt _ _ _ L). Qed.
Lemma sim_push s E H x y t ks k : rel s E H -> s x = Some (Keys t ks) -> s y = Some (Key k) -> typed t k ->
  exists E' H', client srt E H (SPush x y) = Ran (None, E', H') /\ rel (set (set s y None) x (Some (Keys t (ks ++ [k])))) E' H'.
Proof.
  intros R Sx Sy T.
  destruct (rel_keys _ _ _ _ _ _ R Sx) as (v & Ex & Tv & Lv & F & Pv).
  destruct (rel_key _ _ _ _ _ R Sy) as (t' & a & Ey & La & T').
  assert (Oy : own_at E y a) by (eexists; split; [exact Ey|reflexivity]).
  assert (Nxy : x <> y) by congruence.
  cbn [client]. rewrite Ex, Ey. cbn [step]. rewrite (slots_ok H v ks Lv Pv), Tv, (owned_kf_ok H t a k La T), (firstn_len ks) by exact Lv.
  assert (Sk : skipn (S (v_len v)) ks = []) by (apply skipn_all2; lia).
  assert (F' : Forall (typed t) (ks ++ [k])) by (apply Forall_app; auto).
  destruct (v_ptr v) as [b|] eqn:Pb.
  - destruct Pv as [Lb Cb]. assert (Ox : own_at E x b) by (eexists; split; [exact Ex|exact Pb]).
    assert (Nab : a <> b) by (intros ->; congruence).
    destruct (Nat.ltb_spec (v_len v) (v_cap v)) as [Sp|Sp].
    + eexists. eexists. split; [reflexivity|]. rewrite Sk, app_nil_r. eapply rel_upd; [exact R| | | |].
      * cbn [holds v_ty v_len v_ptr v_cap]. hlook. rewrite Nat.eqb_refl. rewrite app_length. cbn [length]. repeat split; auto; lia.
      * cbn. intros c [= <-]. auto.
      * intros z c Nx Ny O. hlook. eqbs; auto; [elim Nx|elim Ny]; eapply (r_inj _ _ _ R); eauto.
      * cbn. intros c w. hlook. eqbs; auto; try discriminate. intros L. right. repeat split; auto; intros O.
        -- assert (c = b); [|congruence]. destruct O as (h & Eh & A). rewrite Ex in Eh. injection Eh as <-. cbn in A. congruence.
        -- assert (c = a); [|congruence]. destruct O as (h & Eh & A). rewrite Ey in Eh. injection Eh as <-. cbn in A. congruence.
    + cbn [alloc]. eexists. eexists. split; [reflexivity|]. eapply rel_upd; [exact R| | | |].
      * cbn [holds v_ty v_len v_ptr v_cap]. hlook. rewrite Nat.eqb_refl. rewrite app_length. cbn [length]. unfold grown. repeat split; auto; lia.
      * cbn. intros c [= <-]. rewrite !free_length. auto.
      * intros z c Nx Ny O. pose proof (own_lt _ _ _ _ _ R O). hlook. rewrite !free_length. eqbs; auto; [lia|elim Nx|elim Ny]; eapply (r_inj _ _ _ R); eauto.
      * cbn. intros c w. hlook. rewrite !free_length. eqbs; auto; try discriminate. intros L. right. repeat split; auto; intros O.
        -- assert (c = b); [|congruence]. destruct O as (h & Eh & A). rewrite Ex in Eh. injection Eh as <-. cbn in A. congruence.
        -- assert (c = a); [|congruence]. destruct O as (h & Eh & A). rewrite Ey in Eh. injection Eh as <-. cbn in A. congruence.
  - destruct Pv as [-> Cv]. cbn [alloc]. eexists. eexists. split; [reflexivity|]. eapply rel_upd; [exact R| | | |].
    + cbn [holds v_ty v_len v_ptr v_cap]. hlook. rewrite Nat.eqb_refl. cbn [length app] in *. unfold grown. repeat split; auto; lia.
    + cbn. intros c [= <-]. rewrite !free_length. auto.
    + intros z c Nx Ny O. pose proof (own_lt _ _ _ _ _ R O). hlook. rewrite !free_length. eqbs; auto; [lia|elim Ny]; eapply (r_inj _ _ _ R); eauto.
    + cbn. intros c w. hlook. rewrite !free_length. eqbs; auto; try discriminate. intros L. right. repeat split; auto; intros O.
      * destruct O as (h & Eh & A). rewrite Ex in Eh. injection Eh as <-. cbn in A. congruence.
      * assert (c = a); [|congruence]. destruct O as (h & Eh & A). rewrite Ey in Eh. injection Eh as <-. cbn in A. congruence.
Qed.

Lemma own_is E x h a : E x = Some h -> own_at E x a -> addr h = Some a.
Proof. intros Ex (h' & Eh & A). congruence. Qed.

(** [x] unbound (after giving up [y]), a box allocated for it. *)
Lemma sim_new s E H x y c th h H0 : rel s E H -> set s y None x = None ->
  (forall a, look H0 a = if match E y with Some g => match addr g with Some b => b =? a | None => false end | None => false end then None else look H a) ->
  length H0 = length H ->
  addr h = Some (length H) -> holds (H0 ++ [Some c]) th h ->
  rel (set (set s y None) x (Some th)) (set (set E y None) x (Some h)) (H0 ++ [Some c]).
Proof.
  intros R Sx L0 Len A P.
  assert (Ox : forall a, own_at E x a -> x = y).
  { intros a (g & Eg & _). destruct (Nat.eq_dec x y); auto. rewrite set_other in Sx by auto. apply (rel_none _ _ _ _ R) in Sx. congruence. }
  eapply rel_upd; [exact R|exact P| | |].
  - intros a Ha. left. rewrite A in Ha. injection Ha as <-. lia.
  - intros z a Nx Ny O. pose proof (own_lt _ _ _ _ _ R O). rewrite look_alloc, L0, Len. eqbs; [lia|].
    destruct (E y) as [g|] eqn:Ey; auto. destruct (addr g) as [b|] eqn:Ab; auto. eqbs; auto.
    elim Ny. eapply (r_inj _ _ _ R); [exact O|]. exists g. auto.
  - intros a w. rewrite look_alloc, Len, L0. eqbs; [rewrite A; auto|].
    destruct (E y) as [g|] eqn:Ey; [destruct (addr g) as [b|] eqn:Ab|]; [eqbs; [discriminate|]| |]; intros L; right; repeat split; auto; intros O.
    all: try (pose proof O as O'; apply Ox in O'; subst x).
    all: apply (own_is _ _ _ _ Ey) in O || (destruct O as (g' & Eg' & _); congruence); congruence.
Qed.
Lemma sim_free s E H x h : rel s E H -> E x = Some h ->
  rel (set s x None) (set E x None) (match addr h with Some a => free H a | None => H end).
Proof.
  intros R Ex. apply rel_drop with (1 := R).
  - intros z a Nz O. destruct (addr h) as [b|] eqn:A; auto. hlook. eqbs; auto. elim Nz. eapply (r_inj _ _ _ R); [exact O|]. exists h. auto.
  - intros a c. destruct (addr h) as [b|] eqn:A; [hlook; eqbs; [discriminate|]|]; intros L; split; auto; intros O; apply (own_is _ _ _ _ Ex) in O; congruence.
Qed.

Lemma set_set_same {A} (s : nat -> option A) x o z : set (set s x None) x o z = set s x o z.
Proof. unfold set. destruct (z =? x); reflexivity. Qed.
Lemma sim_assign s E H x y i t ks k : rel s E H -> s x = Some (Keys t ks) -> s y = Some (Key k) -> typed t k -> i < length ks ->
  exists E' H', client srt E H (SAssign x i y) = Ran (None, E', H') /\
    rel (set (set s y None) x (Some (Keys t (firstn i ks ++ k :: skipn (S i) ks)))) E' H'.
Proof.
  intros R Sx Sy T Li.
  destruct (rel_keys _ _ _ _ _ _ R Sx) as (v & Ex & Tv & Lv & F & Pv).
  destruct (rel_key _ _ _ _ _ R Sy) as (t' & a & Ey & La & T').
  assert (Oy : own_at E y a) by (eexists; split; [exact Ey|reflexivity]).
  assert (Nxy : x <> y) by congruence.
  cbn [client]. rewrite Ex, Ey. cbn [step]. rewrite (slots_ok H v ks Lv Pv), Tv, (owned_kf_ok H t a k La T).
  destruct (v_ptr v) as [b|] eqn:Pb; [|destruct Pv as [-> _]; cbn in Li; lia].
  destruct Pv as [Lb Cb]. assert (Ox : own_at E x b) by (eexists; split; [exact Ex|exact Pb]).
  assert (Nab : a <> b) by (intros ->; congruence).
  rewrite Lv. destruct (Nat.ltb_spec i (length ks)) as [_|]; [|lia]. eexists. eexists. split; [reflexivity|].
  apply rel_ext with (s := set (set s y None) x (Some (Keys t (firstn i ks ++ k :: skipn (S i) ks)))) (E := set (set E y None) x (Some (HVec v))); auto.
  2: { intros z. destruct (Nat.eq_dec z x) as [->|N]; [rewrite set_same, set_other; auto|]. now rewrite (set_other _ x _ z). }
  rewrite <- (list_set_split ks i k Li).
  eapply rel_upd; [exact R| | | |].
  - cbn [holds v_ty v_len v_ptr v_cap]. rewrite Pb. hlook. rewrite Nat.eqb_refl. rewrite list_set_length. repeat split; auto using Forall_list_set.
  - cbn. rewrite Pb. intros c [= <-]. auto.
  - intros z c Nx Ny O. hlook. eqbs; auto; [elim Nx|elim Ny]; eapply (r_inj _ _ _ R); eauto.
  - cbn. rewrite Pb. intros c w. hlook. eqbs; auto; try discriminate. intros L. right. repeat split; auto; intros O.
    + apply (own_is _ _ _ _ Ex) in O. cbn in O. congruence.
    + apply (own_is _ _ _ _ Ey) in O. cbn in O. congruence.
Qed.

Lemma prim_of_type v : dynprim_type v = TPrim (prim_of v). Proof. destruct v; reflexivity. Qed.
Lemma sim_goes s E H c o s' : rel s E H -> plain srt s c = Goes o s' ->
  exists E' H', client srt E H c = Ran (o, E', H') /\ rel s' E' H'.
Proof.
  intros R P. destruct c as [x v|x y time|x t|x y|x i y|x y|x|x|x|x|x i|mut x]; cbn [plain] in P.
  - (* SValue *)
    destruct (s x) eqn:Sx; [discriminate|]. injection P as <- <-. cbn [client call_ptr]. unfold call_ptr. cbn [step new_box alloc].
    eexists. eexists. split; [reflexivity|].
    eapply rel_ext; [eapply (sim_new s E H x x) with (c := LVal v) (th := Value v) (h := HVal (prim_of v) (PBox (length H)))| |]; try reflexivity.
    + exact R.
    + apply set_same.
    + intros a. rewrite (rel_none _ _ _ _ R Sx). reflexivity.
    + cbn. rewrite look_alloc, Nat.eqb_refl. split; [reflexivity|apply prim_of_type].
    + intros z. now rewrite set_set_same.
    + intros z. now rewrite set_set_same.
  - (* SKey *)
    destruct (s y) as [[v|k|t ks|t ks]|] eqn:Sy; try discriminate. destruct (set s y None x) eqn:Sx; [discriminate|]. injection P as <- <-.
    destruct (rel_value _ _ _ _ _ R Sy) as (t & a & Ey & La & T). cbn [client]. rewrite Ey. unfold call_ptr. cbn [step].
    rewrite (owned_val_ok _ _ _ _ La T). cbn [new_box alloc]. eexists. eexists. split; [reflexivity|].
    apply sim_new with (H := H); auto.
    + intros b. rewrite Ey. cbn [addr]. now rewrite look_free.
    + apply free_length.
    + cbn. now rewrite free_length.
    + cbn. rewrite look_alloc, Nat.eqb_refl. split; [reflexivity|exact T].
  - (* SKeys *)
    destruct (s x) eqn:Sx; [discriminate|]. injection P as <- <-. cbn [client step]. eexists. eexists. split; [reflexivity|].
    pose proof (rel_none _ _ _ _ R Sx) as Ex.
    eapply rel_ext; [eapply (rel_upd s E H x x) with (th := Keys t []) (h := HVec (mkCvec t None 0 0)) (H' := H)| |]; try reflexivity; auto.
    + cbn. repeat split; auto.
    + cbn. discriminate.
    + cbn. intros a c L. right. repeat split; auto; intros (h & Eh & _); congruence.
    + intros z. now rewrite set_set_same.
    + intros z. now rewrite set_set_same.
  - (* SPush *)
    destruct (s x) as [[v|k|t ks|t ks]|] eqn:Sx; try discriminate. destruct (s y) as [[v|k|t' ks'|t' ks']|] eqn:Sy; try discriminate.
    destruct (ptype_eqb_spec (key_type k) (TPrim t)) as [T|T]; [|discriminate]. injection P as <- <-. now apply sim_push.
  - (* SAssign *)
    destruct (s x) as [[v|k|t ks|t ks]|] eqn:Sx; try discriminate. destruct (s y) as [[v|k|t' ks'|t' ks']|] eqn:Sy; try discriminate.
    destruct (ptype_eqb_spec (key_type k) (TPrim t)) as [T|T]; [|discriminate].
    destruct (Nat.ltb_spec i (length ks)) as [Li|Li]; [|discriminate]. injection P as <- <-. now apply sim_assign.
  - (* SChan *)
    destruct (s y) as [[v|k|t ks|t ks]|] eqn:Sy; try discriminate. destruct (set s y None x) eqn:Sx; [discriminate|]. injection P as <- <-.
    destruct (rel_keys _ _ _ _ _ _ R Sy) as (v & Ey & Tv & Lv & F & Pv). cbn [client]. rewrite Ey. unfold call_ptr. cbn [step].
    rewrite (slots_ok _ _ _ Lv Pv), (firstn_len ks _ Lv). cbn [new_box alloc]. eexists. eexists. split; [reflexivity|].
    assert (Len : length (free_buf H v) = length H) by (unfold free_buf; destruct (v_ptr v); auto using free_length).
    apply sim_new with (H := H); auto.
    + intros b. rewrite Ey. cbn [addr]. unfold free_buf. destruct (v_ptr v); auto using look_free.
    + cbn. now rewrite Len.
    + cbn. rewrite look_alloc, Nat.eqb_refl, Tv. repeat split; auto.
      destruct (srt_ok ks) as [Pm _]. apply Forall_forall. intros k Hk. rewrite Forall_forall in F. apply F.
      eapply Permutation.Permutation_in; [apply Permutation.Permutation_sym; exact Pm|exact Hk].
  - (* SFree *)
    destruct (s x) as [[v|k|t ks|t ks]|] eqn:Sx; try discriminate; injection P as <- <-; cbn [client].
    + destruct (rel_value _ _ _ _ _ R Sx) as (t & a & Ex & La & T). rewrite Ex. cbn [step]. rewrite La.
      eexists. eexists. split; [reflexivity|]. exact (sim_free _ _ _ _ _ R Ex).
    + destruct (rel_key _ _ _ _ _ R Sx) as (t & a & Ex & La & T). rewrite Ex. cbn [step]. rewrite (owned_kf_ok _ _ _ _ La T).
      eexists. eexists. split; [reflexivity|]. exact (sim_free _ _ _ _ _ R Ex).
    + destruct (rel_keys _ _ _ _ _ _ R Sx) as (v & Ex & Tv & Lv & F & Pv). rewrite Ex. cbn [step]. rewrite (slots_ok _ _ _ Lv Pv).
      eexists. eexists. split; [reflexivity|]. exact (sim_free _ _ _ _ _ R Ex).
    + destruct (rel_chan _ _ _ _ _ _ R Sx) as (a & Ex & F & La). rewrite Ex. cbn [step]. rewrite (chan_ok _ _ _ _ La eq_refl).
      eexists. eexists. split; [reflexivity|]. exact (sim_free _ _ _ _ _ R Ex).
  - (* ShowValue *)
    destruct (s x) as [[v|k|t ks|t ks]|] eqn:Sx; try discriminate; injection P as <- <-.
    destruct (rel_value _ _ _ _ _ R Sx) as (t & a & Ex & La & T). cbn [client]. rewrite Ex. cbn [step val_at]. rewrite La. eauto.
  - (* ShowKey *)
    destruct (s x) as [[v|k|t ks|t ks]|] eqn:Sx; try discriminate.
    destruct (rel_key _ _ _ _ _ R Sx) as (t & a & Ex & La & T). cbn [client]. rewrite Ex.
    destruct (read_key_ok srt H t (PBox a) k) as (v & Sh & Rd); [cbn; now rewrite La|exact T|].
    rewrite Sh in P. injection P as <- <-. rewrite Rd. eauto.
  - (* ShowLen *)
    destruct (s x) as [[v|k|t ks|t ks]|] eqn:Sx; try discriminate; injection P as <- <-.
    destruct (rel_keys _ _ _ _ _ _ R Sx) as (v & Ex & Tv & Lv & F & Pv). cbn [client]. rewrite Ex, Lv. eauto.
  - (* ShowAt *)
    destruct (s x) as [[v|k|t ks|t ks]|] eqn:Sx; try discriminate. destruct (nth_error ks i) as [k|] eqn:Ni; [|discriminate].
    destruct (rel_keys _ _ _ _ _ _ R Sx) as (v & Ex & Tv & Lv & F & Pv). cbn [client]. rewrite Ex. unfold call_ptr. cbn [step].
    rewrite (slots_ok _ _ _ Lv Pv). destruct (v_ptr v) as [a|]; [|destruct Pv as [-> _]; destruct i; discriminate].
    destruct Pv as [La Cv]. pose proof (nth_error_lt _ _ _ Ni) as Li. rewrite Lv. destruct (Nat.ltb_spec i (length ks)); [|lia].
    destruct (read_key_ok srt H (v_ty v) (PElt a i) k) as (w & Sh & Rd).
    { cbn. now rewrite La. }
    { rewrite Tv. rewrite Forall_forall in F. apply F. eapply nth_error_In. exact Ni. }
    rewrite Sh in P. injection P as <- <-. rewrite Rd. eauto.
  - (* ShowChan *)
    destruct (s x) as [[v|k|t ks|t ks]|] eqn:Sx; try discriminate.
    destruct (rel_chan _ _ _ _ _ _ R Sx) as (a & Ex & F & La). cbn [client]. rewrite Ex.
    assert (St : step srt H (if mut then Channel__keyframes_mut t (PBox a) else Channel__keyframes t (PBox a)) = ref_vec H a (length ks)).
    { destruct mut; cbn [step]; rewrite (chan_ok _ _ _ _ La eq_refl); reflexivity. }
    rewrite St. destruct (length ks) as [|n] eqn:Ln.
    { destruct ks; [|discriminate]. cbn [shown_all] in P. injection P as <- <-. cbn. eauto. }
    cbn [ref_vec alloc]. rewrite <- Ln.
    destruct (read_refs_ok srt (H ++ [Some (LRefs (map (PChan a) (seq 0 (length ks))))]) t (length H) a (length ks) ks 0) as (l & Sa & Rr).
    { rewrite look_alloc, Nat.eqb_refl. reflexivity. }
    { intros j k J. cbn [kf_at Nat.add]. rewrite look_alloc, La. pose proof (look_lt _ _ _ La). eqbs; [lia|]. cbn [ch_keys]. split; [exact J|].
      rewrite Forall_forall in F. apply F. eapply nth_error_In. exact J. }
    { reflexivity. }
    rewrite Sa in P. injection P as <- <-. rewrite Rr. eexists. eexists. split; [reflexivity|].
    apply rel_refs with (1 := R); intros b c; rewrite look_alloc.
    + intros L. pose proof (look_lt _ _ _ L). eqbs; [lia|exact L].
    + eqbs; [intros [= <-]; eauto|auto].
Qed.
Lemma sim_stops s E H c : rel s E H -> plain srt s c = Stops -> client srt E H c = Aborted.
Proof.
  intros R P. destruct c as [x v|x y time|x t|x y|x i y|x y|x|x|x|x|x i|mut x]; cbn [plain] in P.
  - destruct (s x); discriminate.
  - destruct (s y) as [[]|]; try discriminate. destruct (set s y None x); discriminate.
  - destruct (s x); discriminate.
  - destruct (s x) as [[]|]; try discriminate. destruct (s y) as [[]|]; try discriminate. destruct (ptype_eqb _ _); discriminate.
  - destruct (s x) as [[v|k|t ks|t ks]|] eqn:Sx; try discriminate. destruct (s y) as [[v|k|t' ks'|t' ks']|] eqn:Sy; try discriminate.
    destruct (ptype_eqb_spec (key_type k) (TPrim t)) as [T|T]; [|discriminate].
    destruct (Nat.ltb_spec i (length ks)) as [Li|Li]; [discriminate|].
    destruct (rel_keys _ _ _ _ _ _ R Sx) as (v & Ex & Tv & Lv & F & Pv).
    destruct (rel_key _ _ _ _ _ R Sy) as (t' & a & Ey & La & T').
    cbn [client]. rewrite Ex, Ey. cbn [step]. rewrite (slots_ok _ _ _ Lv Pv), Tv, (owned_kf_ok _ _ _ _ La T).
    destruct (v_ptr v); [|reflexivity]. rewrite Lv. destruct (Nat.ltb_spec i (length ks)); [lia|reflexivity].
  - destruct (s y) as [[]|]; try discriminate. destruct (set s y None x); discriminate.
  - destruct (s x); discriminate.
  - destruct (s x) as [[]|]; discriminate.
  - destruct (s x) as [[]|]; try discriminate. destruct (shown k) as [[]|]; discriminate.
  - destruct (s x) as [[]|]; discriminate.
  - destruct (s x) as [[v|k|t ks|t ks]|] eqn:Sx; try discriminate.
    destruct (nth_error ks i) as [k|] eqn:Ni; [destruct (shown k) as [[]|]; discriminate|].
    apply nth_error_None in Ni. destruct (rel_keys _ _ _ _ _ _ R Sx) as (v & Ex & Tv & Lv & F & Pv).
    cbn [client]. rewrite Ex. unfold call_ptr. cbn [step]. rewrite (slots_ok _ _ _ Lv Pv).
    destruct (v_ptr v); [|reflexivity]. rewrite Lv. destruct (Nat.ltb_spec i (length ks)); [lia|reflexivity].
  - destruct (s x) as [[]|]; try discriminate. destruct (shown_all ks); discriminate.
Qed.

Lemma sim_run p : forall s E H l e, rel s E H -> plain_run srt s p = (l, e) ->
  match e with
  | Finished s' => exists E' H', client_run srt E H p = (l, Finished (E', H')) /\ rel s' E' H'
  | Crashed => client_run srt E H p = (l, Crashed)
  | Invalid => True
  end.
Proof.
  induction p as [|c p IH]; intros s E H l e R P; cbn [plain_run client_run] in *.
  - injection P as <- <-. eauto.
  - destruct (plain srt s c) as [o s'| |] eqn:Pc.
    + destruct (plain_run srt s' p) as [l' e'] eqn:Pr. injection P as <- <-.
      destruct (sim_goes _ _ _ _ _ _ R Pc) as (E' & H' & C & R'). rewrite C. specialize (IH _ _ _ _ _ R' Pr).
      destruct e' as [s''| |]; auto.
      * destruct IH as (E'' & H'' & -> & R''). eauto.
      * now rewrite IH.
    + injection P as <- <-. now rewrite (sim_stops _ _ _ _ R Pc).
    + injection P as <- <-. exact I.
Qed.
End Sim.
