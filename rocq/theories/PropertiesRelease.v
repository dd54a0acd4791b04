(** C58: release builds and debug builds. *)
From Verif Require Import BaseProofs Tween TweenProofs PropertiesTween.
From Verif Require Import PropertiesBaseline PropertiesRound SerProofs PropertiesSer Release.
From Coq Require Import Permutation ZifyBool.
Open Scope nat_scope.

(** ** Tweens *)

Section Tween.
Open Scope Z_scope.
Lemma wrap_in lo hi z : lo <= hi -> lo <= wrap lo hi z <= hi.
Proof. intros H. unfold wrap. pose proof (Z.mod_pos_bound (z - lo) (hi - lo + 1)). lia. Qed.
Lemma wrap_id lo hi z : lo <= z <= hi -> wrap lo hi z = z.
Proof. intros H. unfold wrap. rewrite Z.mod_small; lia. Qed.
Lemma wrap_eq lo hi z : exists k, wrap lo hi z = z + k * (hi - lo + 1).
Proof.
  unfold wrap. exists (- ((z - lo) / (hi - lo + 1))). destruct (Z.eq_dec (hi - lo + 1) 0) as [E|E].
  - rewrite E, Zmod_0_r. lia.
  - pose proof (Z.div_mod (z - lo) (hi - lo + 1) E). lia.
Qed.
Lemma wrap_unique lo hi z k : lo <= z + k * (hi - lo + 1) <= hi -> wrap lo hi z = z + k * (hi - lo + 1).
Proof.
  intros H. unfold wrap. rewrite <- (Z.mod_add _ k) by lia. rewrite Z.mod_small; lia.
Qed.

(** Whatever a debug build computes, a release build computes. *)
Theorem C58_tween_agrees : forall lo hi from to t r,
  int_ease lo hi from to t = Ok r -> int_ease_release lo hi from to t = Ok r.
Proof.
  intros lo hi from to t r E. unfold int_ease in E. unfold int_ease_release.
  destruct (Tween.fits lo hi (to - from)) eqn:F1; [|discriminate]. cbn [negb] in E.
  unfold Tween.fits in F1. rewrite (wrap_id lo hi (to - from)) by lia.
  destruct (Tween.fits lo hi (f32_as_u32 (SFmul 24 128 (to_f32 t) (int_as_f32 (to - from))))) eqn:F2; [|discriminate].
  cbn [negb] in *. destruct (Tween.fits lo hi (from + f32_as_u32 (SFmul 24 128 (to_f32 t) (int_as_f32 (to - from))))) eqn:F3; [|discriminate].
  cbn [negb] in E. injection E as <-. unfold Tween.fits in F3. rewrite wrap_id by lia. reflexivity.
Qed.
Print Assumptions C58_tween_agrees.

(** A release tween in general: the distance is taken around the circle of the type's
    values, as a value [D] of the type; the result is a debug tween from 0 to [D], carried
    around the circle from the starting point. *)
Theorem C58_tween_goes_around : forall lo hi from to t D k,
  lo <= 0 <= hi -> lo <= D <= hi -> D = to - from + k * (hi - lo + 1) ->
  match int_ease lo hi 0 D t with
  | Ok s => exists r j, int_ease_release lo hi from to t = Ok r /\ lo <= r <= hi /\ r = from + s + j * (hi - lo + 1)
  | _ => int_ease_release lo hi from to t = Panic
  end.
Proof.
  intros lo hi from to t D k H0 HD ED.
  assert (W : wrap lo hi (to - from) = D) by (rewrite (wrap_unique lo hi (to - from) k); lia).
  unfold int_ease, int_ease_release. rewrite W, Z.sub_0_r. set (sc := f32_as_u32 _).
  assert (F : Tween.fits lo hi D = true) by (unfold Tween.fits; lia). rewrite F. cbn [negb].
  destruct (Tween.fits lo hi sc) eqn:Fs; cbn [negb]; [|reflexivity]. rewrite Z.add_0_l, Fs. cbn [negb].
  destruct (wrap_eq lo hi (from + sc)) as [j Ej]. exists (wrap lo hi (from + sc)), j.
  split; [reflexivity|]. split; [apply wrap_in; lia|exact Ej].
Qed.
Print Assumptions C58_tween_goes_around.

(** Descending unsigned tweens panic in a debug build.  In a release build (with at most
    2^24 values between), they start and end at the right values, but in between they are
    never between the two: they go up, over the largest value, and on from 0. *)
Theorem C58_unsigned_descending : forall hi from to x num den,
  0 <= to -> to < from -> from <= hi -> hi + 1 - (from - to) <= 16777216 ->
  has_value x num den -> 0 <= num <= den ->
  int_ease 0 hi from to (F32 x) = Panic /\
  exists r, int_ease_release 0 hi from to (F32 x) = Ok r /\
    (num = 0 -> r = from) /\ (num = den -> r = to) /\
    (from <= r <= hi \/ 0 <= r <= to).
Proof.
  intros hi from to x num den H1 H2 H3 H4 Hv Hn. split.
  { apply C31_int_overflow_panics. lia. }
  set (D := hi + 1 - (from - to)) in *.
  destruct (C31_int_ascending_partial 0 hi 0 D x num den) as [s [E [B [_ [_ [S0 S1]]]]]]; try lia; auto.
  pose proof (C58_tween_goes_around 0 hi from to (F32 x) D 1 ltac:(lia) ltac:(lia) ltac:(lia)) as G. rewrite E in G.
  destruct G as [r [j [R1 [R2 R3]]]]. exists r. split; [exact R1|].
  assert (j = 0 \/ j = -1) by nia.
  split; [intros Z'; specialize (S0 Z'); nia|]. split; [intros Z'; specialize (S1 Z'); nia|]. nia.
Qed.
Print Assumptions C58_unsigned_descending.
Lemma C58_unsigned_descending_met :
  int_ease 0 255 200 100 (F32 f_half) = Panic /\ int_ease_release 0 255 200 100 (F32 f_half) = Ok 22 /\
  int_ease_release 0 255 200 100 (F32 f_one) = Ok 100.
Proof. vm_compute. auto. Qed.

(** Signed tweens whose end points are too far apart panic in a debug build.  In a release
    build, an ascending one never moves. *)
Theorem C58_signed_overflow_never_moves : forall m from to t,
  0 < m -> - m <= from -> to < m -> m <= to - from ->
  sf_sign (float_val t) = Some false ->
  int_ease (- m) (m - 1) from to t = Panic /\ int_ease_release (- m) (m - 1) from to t = Ok from.
Proof.
  intros m from to t H0 H1 H2 H3 Hs. split.
  { apply C31_int_overflow_panics. lia. }
  pose proof (C31_int_descending_never_moves (- m) (m - 1) 0 (to - from - 2 * m) t ltac:(lia) ltac:(lia) ltac:(lia) ltac:(lia) Hs) as E.
  pose proof (C58_tween_goes_around (- m) (m - 1) from to t (to - from - 2 * m) (-1) ltac:(lia) ltac:(lia) ltac:(lia)) as G.
  rewrite E in G. destruct G as [r [j [R1 [R2 R3]]]]. rewrite R1. f_equal.
  assert (j = 0) by nia. subst j. lia.
Qed.
Print Assumptions C58_signed_overflow_never_moves.
Lemma C58_signed_overflow_met :
  int_ease (- 128) (128 - 1) (-100) 100 (F32 f_half) = Panic /\ int_ease_release (- 128) (128 - 1) (-100) 100 (F32 f_half) = Ok (-100) /\
  sf_sign (float_val (F32 f_half)) = Some false.
Proof. vm_compute. auto. Qed.
End Tween.

(** ** Saving *)

Theorem C58_serialize_agrees : forall b sr c ord r sr',
  serialize b sr c ord = (r, sr') -> r <> Panic -> serialize_release b sr c ord = (r, sr').
Proof.
  intros b sr c ord r sr' E N. unfold serialize in E. unfold serialize_release.
  destruct (contract_data_of b (ci_handle c)); auto. destruct (ser_contract (ci_ty c)) as [fc| |]; auto.
  set (n := as_u16 (length (sr_contracts sr ++ [fc]))) in *. destruct (N.eqb_spec n 0) as [Z'|Z'].
  - injection E as <- _. destruct N. reflexivity.
  - replace ((n + 65535) mod 65536)%N with (n - 1)%N; [exact E|].
    assert (n < 65536)%N by (unfold n, as_u16; apply N.mod_lt; discriminate).
    replace (n + 65535)%N with (n - 1 + 1 * 65536)%N by lia. rewrite N.mod_add by discriminate. rewrite N.mod_small; lia.
Qed.
Print Assumptions C58_serialize_agrees.

Lemma reach_typed : forall b, reach b -> typed_states b.
Proof. intros b Hb t h v H. apply state_get_ok in H. exact (bi_st_ty _ (reach_binv _ Hb) _ _ _ H). Qed.

(** [serialize] never panics in a release build, and succeeds exactly if the contract is
    live, has no vector field and every field of every listed object can be read. *)
Theorem C58_serialize_never_panics : forall b sr c ord r sr',
  reach b -> serialize_release b sr c ord = (r, sr') ->
  r <> Panic /\
  (r = Ok tt <-> con_at b (ci_handle c) <> None /\ (forall p, ~ In (TVec p) (ct_states (ci_ty c))) /\
     forall o i, In o ord -> i < length (ct_states (ci_ty c)) -> field_of b c i o <> None).
Proof.
  intros b sr c ord r sr' Hb E. pose proof (reach_typed b Hb) as Ht. unfold serialize_release in E; cbv zeta in E.
  unfold contract_data_of in E. fold (con_at b (ci_handle c)) in E.
  destruct (con_at b (ci_handle c)) as [cd|] eqn:Ec; cbn [ok_or] in E.
  2:{ injection E as <- <-. split; [discriminate|]. split; [discriminate|]. intros [H _]. congruence. }
  pose proof (ser_contract_cases (ci_ty c)) as Hc. destruct (ser_contract (ci_ty c)) as [fc|e|]; [| |tauto].
  2:{ injection E as <- <-. split; [discriminate|]. split; [discriminate|]. intros [_ [H _]]. destruct Hc. exact H. }
  destruct Hc as [Hnv _].
  match type of E with ser_objects _ _ ?i ?x _ = _ =>
    pose proof (ser_objects_cases b c i Ht (no_vec_ids _ (ci_handle c) Hnv) ord x) as Hso end. rewrite E in Hso.
  destruct r as [[]|e|]; [| |tauto].
  - split; [discriminate|]. split; [intros _|auto]. split; [discriminate|]. split; [exact Hnv|].
    intros o i Ho Hi. destruct Hso as [ps [H1 H2]]. rewrite <- H1 in Ho. apply in_map_iff in Ho. destruct Ho as [p [<- Hp]].
    rewrite Forall_forall in H2. destruct (H2 _ Hp) as [H3 _].
    destruct (nth_error (ct_states (ci_ty c)) i) as [t|] eqn:Et; [|apply nth_error_None in Et; lia].
    assert (Hid : nth_error (state_ids (ci_ty c) (ci_handle c)) i = Some (mkPid t i (ci_handle c))) by (rewrite state_ids_nth, Et; reflexivity).
    apply (field_resolves _ _ _ _ _ Hid). destruct (forall2_nth_r _ _ _ H3 _ _ Hid) as [f [_ Hf]]. exists f. auto.
  - split; [discriminate|]. split; [discriminate|]. intros [_ [_ H]]. exfalso.
    destruct Hso as [o [id [H1 [H2 H3]]]]. apply In_nth_error in H2. destruct H2 as [i Hi]. apply H3.
    apply (field_resolves _ _ _ _ _ Hi). apply H; auto. rewrite state_ids_nth in Hi.
    destruct (nth_error (ct_states (ci_ty c)) i) eqn:Et; [|discriminate]. apply nth_error_Some. congruence.
Qed.
Print Assumptions C58_serialize_never_panics.

(** The contract index written into the objects of the [n]-th contract is [n] modulo 65536:
    right for the first 65536 contracts (a debug build panics at the last of these), silently
    that of another contract from then on. *)
Theorem C58_contract_index : forall b sr c ord sr',
  reach b -> serialize_release b sr c ord = (Ok tt, sr') ->
  exists objs, sr_objects sr' = sr_objects sr ++ objs /\ length objs = length ord /\
    forall o, In o objs -> fo_contract o = Some (N.of_nat (length (sr_contracts sr)) mod 65536)%N.
Proof.
  intros b sr c ord sr' Hb E. pose proof (reach_typed b Hb) as Ht. unfold serialize_release in E; cbv zeta in E.
  destruct (contract_data_of b (ci_handle c)); try discriminate.
  pose proof (ser_contract_cases (ci_ty c)) as Hc. destruct (ser_contract (ci_ty c)) as [fc|e|]; try discriminate.
  destruct Hc as [Hnv _].
  replace ((as_u16 (length (sr_contracts sr ++ [fc])) + 65535) mod 65536)%N with (N.of_nat (length (sr_contracts sr)) mod 65536)%N in E.
  2:{ unfold as_u16. rewrite app_length. cbn [length]. rewrite N.add_mod_idemp_l by discriminate.
      replace (N.of_nat (length (sr_contracts sr) + 1) + 65535)%N with (N.of_nat (length (sr_contracts sr)) + 1 * 65536)%N by lia.
      rewrite N.mod_add by discriminate. reflexivity. }
  set (cidx := (N.of_nat (length (sr_contracts sr)) mod 65536)%N) in *. clearbody cidx.
  match type of E with ser_objects _ _ _ ?x _ = _ => set (s1 := x) in *; change (sr_objects sr) with (sr_objects s1) end. clearbody s1.
  clear - E. revert s1 E. induction ord as [|o ord IH]; intros s1 E; cbn [ser_objects] in E.
  - injection E as <-. exists []. rewrite app_nil_r. split; [reflexivity|]. split; [reflexivity|]. intros o [].
  - unfold ser_object in E. destruct (ser_states b o s1 (state_ids (ci_ty c) (ci_handle c))) as [[l|e|] s2] eqn:Es; try discriminate.
    destruct (IH _ E) as [objs [A [B C]]]. cbn [sr_objects] in A.
    assert (K : sr_objects s2 = sr_objects s1).
    { clear - Es. revert l s1 s2 Es. induction (state_ids (ci_ty c) (ci_handle c)) as [|id ids IH]; intros l s1 s2 Es; cbn [ser_states] in Es.
      - injection Es as _ <-. reflexivity.
      - unfold ser_state in Es. destruct (bind_state b id o) as [h|e|]; try discriminate.
        destruct (state_get b (pid_type id) h) as [v|e|]; try discriminate. destruct (ser_value v) as [x|e|]; try discriminate.
        match type of Es with (match ser_states _ _ ?m _ with _ => _ end) = _ => set (s' := m) in * end.
        destruct (ser_states b o s' ids) as [[k|e|] s3] eqn:E3; try discriminate. injection Es as _ <-.
        rewrite (IH _ _ _ E3). unfold s'. destruct (pid_type id) as [p|p]; [reflexivity|destruct p; reflexivity]. }
    rewrite K in A. exists (mkFbObject (Some cidx) (Some l) :: objs). split; [rewrite A, <- app_assoc; reflexivity|].
    split; [cbn; lia|]. intros x [<-|X]; [reflexivity|apply C; exact X].
Qed.
Print Assumptions C58_contract_index.

(** The 65536th contract: a debug build panics, a release build saves it with its right
    index. *)
Theorem C58_the_65536th_contract : forall b sr c ord r sr',
  reach b -> N.of_nat (length (sr_contracts sr)) = 65535%N ->
  con_at b (ci_handle c) <> None -> (forall p, ~ In (TVec p) (ct_states (ci_ty c))) ->
  (forall o i, In o ord -> i < length (ct_states (ci_ty c)) -> field_of b c i o <> None) ->
  serialize_release b sr c ord = (r, sr') ->
  fst (serialize b sr c ord) = Panic /\ r = Ok tt /\
  exists objs, sr_objects sr' = sr_objects sr ++ objs /\ length objs = length ord /\
    forall o, In o objs -> fo_contract o = Some 65535%N.
Proof.
  intros b sr c ord r sr' Hb L Live NoVec Fields E. split; [|split].
  - destruct (serialize b sr c ord) as [q s2] eqn:Eq. apply (C33_serialize_succeeds_iff b sr c ord q s2 Hb Eq).
    split; [|split; [exact Live|exact NoVec]]. rewrite Nat2N.inj_succ, L. reflexivity.
  - apply (C58_serialize_never_panics b sr c ord r sr' Hb E). auto.
  - assert (r = Ok tt) by (apply (C58_serialize_never_panics b sr c ord r sr' Hb E); auto). subst r.
    destruct (C58_contract_index b sr c ord sr' Hb E) as [objs [A [B C]]]. exists objs. split; [exact A|]. split; [exact B|].
    intros o K. rewrite (C o K), L. reflexivity.
Qed.
Print Assumptions C58_the_65536th_contract.

(** ** The assertion *)

(** Any calls of [serialize], in either mode, whatever they return. *)
Inductive serializing (b : baseline) : ser -> Prop :=
| serializing_new : serializing b ser_new
| serializing_debug s c ord r s' : serializing b s -> serialize b s c ord = (r, s') -> serializing b s'
| serializing_release s c ord r s' : serializing b s -> serialize_release b s c ord = (r, s') -> serializing b s'.

(** Every entry of the two maps stands for a placeholder of its own. *)
Record pending (s : ser) : Prop := {
  pd_con : forall h i, In (h, i) (hm_cstates s) -> nth_error (sr_states s) i = Some None;
  pd_obj : forall h i, In (h, i) (hm_ostates s) -> nth_error (sr_states s) i = Some None;
  pd_once : NoDup (map snd (hm_cstates s) ++ map snd (hm_ostates s))
}.
Lemma bm_insert_in : forall (m : @bimap index nat) h i x y, In (x, y) (bm_insert index_eqb Nat.eqb h i m) -> In (x, y) m \/ (x, y) = (h, i).
Proof.
  intros m h i x y H. unfold bm_insert in H. apply in_app_or in H. destruct H as [H|[H|[]]]; [left|right; congruence].
  apply filter_In in H. apply H.
Qed.
Lemma nodup_sub : forall (m : @bimap index nat) f, NoDup (map snd m) -> NoDup (map snd (filter f m)).
Proof.
  induction m as [|[x y] m IH]; intros f H; cbn; [constructor|]. inversion H as [|a l H1 H2]; subst.
  destruct (f (x, y)); [|apply IH; exact H2]. cbn. constructor; [|apply IH; exact H2].
  intros K. apply H1. apply in_map_iff in K. destruct K as [q [E K]]. apply filter_In in K. apply in_map_iff. exists q. tauto.
Qed.
Lemma in_sub : forall (m : @bimap index nat) f y, In y (map snd (filter f m)) -> In y (map snd m).
Proof. intros m f y K. apply in_map_iff in K. destruct K as [q [E K]]. apply filter_In in K. apply in_map_iff. exists q. tauto. Qed.
Lemma nodup_two : forall (l m : list nat), NoDup (l ++ m) <-> NoDup l /\ NoDup m /\ forall x, In x l -> ~ In x m.
Proof.
  induction l as [|a l IH]; intros m; cbn.
  - split; [intros H; repeat split; auto; constructor|intros [_ [H _]]; exact H].
  - split.
    + intros H. inversion H as [|x y H1 H2]; subst. apply IH in H2. destruct H2 as [A [B C]].
      split; [constructor; [intros K; apply H1; apply in_or_app; auto|exact A]|]. split; [exact B|].
      intros x [<-|K] L; [apply H1; apply in_or_app; auto|exact (C x K L)].
    + intros [A [B C]]. inversion A as [|x y A1 A2]; subst. constructor.
      * intros K. apply in_app_or in K. destruct K as [K|K]; [exact (A1 K)|exact (C a (or_introl eq_refl) K)].
      * apply IH. split; [exact A2|]. split; [exact B|]. intros x K. apply C. right. exact K.
Qed.
Lemma snoc_old : forall (A : Type) (l : list A) x i y, nth_error l i = Some y -> nth_error (l ++ [x]) i = Some y.
Proof. intros A l x i y H. rewrite nth_error_app1; [exact H|]. apply nth_error_Some. congruence. Qed.

Lemma pending_state : forall b o s id r s', typed_states b -> pending s -> ser_state b o s id = (r, s') -> pending s'.
Proof.
  intros b o s id r s' Ht [P1 P2 P3] E. unfold ser_state in E.
  destruct (bind_state b id o) as [h|e|]; try (injection E as _ <-; constructor; assumption).
  destruct (state_get b (pid_type id) h) as [v|e|] eqn:Eg; try (injection E as _ <-; constructor; assumption).
  apply Ht in Eg.
  destruct (ser_value v) as [x|e|] eqn:Ev; try (injection E as _ <-; constructor; assumption). injection E as _ <-.
  assert (Lc : forall i, In i (map snd (hm_cstates s)) -> i < length (sr_states s)).
  { intros i K. apply in_map_iff in K. destruct K as [[a j] [<- K]]. cbn [snd]. apply nth_error_Some. rewrite (P1 _ _ K). discriminate. }
  assert (Lo : forall i, In i (map snd (hm_ostates s)) -> i < length (sr_states s)).
  { intros i K. apply in_map_iff in K. destruct K as [[a j] [<- K]]. cbn [snd]. apply nth_error_Some. rewrite (P2 _ _ K). discriminate. }
  apply nodup_two in P3. destruct P3 as [Q1 [Q2 Q3]].
  assert (Last : forall y, nth_error (sr_states s ++ [y]) (length (sr_states s)) = Some y)
    by (intros y; rewrite nth_error_app2 by lia; rewrite Nat.sub_diag; reflexivity).
  assert (Ncl : ~ In (length (sr_states s)) (map snd (hm_cstates s))) by (intros K; apply Lc in K; lia).
  assert (Nol : ~ In (length (sr_states s)) (map snd (hm_ostates s))) by (intros K; apply Lo in K; lia).
  assert (Plain : pending (mkSer (sr_contracts s) (sr_states s ++ [x]) (sr_objects s) (hm_objects s) (hm_contracts s) (hm_cstates s) (hm_ostates s))).
  { constructor; cbn [hm_cstates hm_ostates sr_states].
    - intros a i K. apply snoc_old. eapply P1; eauto.
    - intros a i K. apply snoc_old. eapply P2; eauto.
    - apply nodup_two. auto. }
  destruct (pid_type id) as [p|p]; [exact Plain|].
  destruct p; try exact Plain.
  - (* an object handle *)
    assert (x = None) as ->. { destruct v as [q|q]; [destruct q; cbn in *; try discriminate; congruence|discriminate]. }
    constructor; cbn [hm_cstates hm_ostates sr_states].
    + intros a i K. apply snoc_old. eapply P1; eauto.
    + intros a i K. apply bm_insert_in in K. destruct K as [K|K]; [apply snoc_old; eapply P2; eauto|].
      injection K as -> ->. apply Last.
    + apply nodup_two. split; [exact Q1|]. unfold bm_insert. rewrite map_app. cbn [map snd]. split.
      * apply nodup_two. split; [apply nodup_sub; exact Q2|]. split; [constructor; [intros []|constructor]|].
        intros y K [<-|[]]. apply in_sub in K. exact (Nol K).
      * intros y K L. apply in_app_or in L. destruct L as [L|[<-|[]]]; [apply in_sub in L; exact (Q3 y K L)|exact (Ncl K)].
  - assert (x = None) as ->. { destruct v as [q|q]; [destruct q; cbn in *; try discriminate; congruence|discriminate]. }
    constructor; cbn [hm_cstates hm_ostates sr_states].
    + intros a i K. apply bm_insert_in in K. destruct K as [K|K]; [apply snoc_old; eapply P1; eauto|].
      injection K as -> ->. apply Last.
    + intros a i K. apply snoc_old. eapply P2; eauto.
    + apply nodup_two. unfold bm_insert. rewrite map_app. cbn [map snd]. split.
      * apply nodup_two. split; [apply nodup_sub; exact Q1|]. split; [constructor; [intros []|constructor]|].
        intros y K [<-|[]]. apply in_sub in K. exact (Ncl K).
      * split; [exact Q2|]. intros y K L. apply in_app_or in K. destruct K as [K|[<-|[]]]; [apply in_sub in K; exact (Q3 y K L)|exact (Nol L)].
Qed.
Lemma pending_states : forall b o ids s r s', typed_states b -> pending s -> ser_states b o s ids = (r, s') -> pending s'.
Proof.
  intros b o. induction ids as [|id ids IH]; intros s r s' Ht P E; cbn [ser_states] in E; [injection E as _ <-; exact P|].
  destruct (ser_state b o s id) as [r1 s1] eqn:E1. pose proof (pending_state _ _ _ _ _ _ Ht P E1) as P1.
  destruct r1 as [i|e|]; try (injection E as _ <-; exact P1).
  destruct (ser_states b o s1 ids) as [r2 s2] eqn:E2. pose proof (IH _ _ _ Ht P1 E2) as P2.
  destruct r2; injection E as _ <-; exact P2.
Qed.
Lemma pending_frame : forall s s', hm_cstates s' = hm_cstates s -> hm_ostates s' = hm_ostates s -> sr_states s' = sr_states s -> pending s -> pending s'.
Proof. intros s s' A B C [P1 P2 P3]. constructor; rewrite ?A, ?B, ?C; assumption. Qed.
Lemma pending_objects : forall b c cidx ord s r s', typed_states b -> pending s -> ser_objects b c cidx s ord = (r, s') -> pending s'.
Proof.
  intros b c cidx. induction ord as [|o ord IH]; intros s r s' Ht P E; cbn [ser_objects] in E; [injection E as _ <-; exact P|].
  unfold ser_object in E. destruct (ser_states b o s (state_ids (ci_ty c) (ci_handle c))) as [r1 s1] eqn:E1.
  pose proof (pending_states _ _ _ _ _ _ Ht P E1) as P1. destruct r1 as [l|e|]; try (injection E as _ <-; exact P1).
  eapply IH; [exact Ht| |exact E]. eapply pending_frame; [| | |exact P1]; reflexivity.
Qed.
Lemma serializing_pending : forall b s, reach b -> serializing b s -> pending s.
Proof.
  intros b s Hb H. pose proof (reach_typed b Hb) as Ht. induction H as [|s c ord r s' H IH E|s c ord r s' H IH E].
  - constructor; cbn; try (intros h i []). constructor.
  - unfold serialize in E. destruct (contract_data_of b (ci_handle c)); try (injection E as _ <-; exact IH).
    destruct (ser_contract (ci_ty c)) as [fc| |]; try (injection E as _ <-; exact IH).
    destruct (N.eqb _ 0); [injection E as _ <-; eapply pending_frame; [| | |exact IH]; reflexivity|].
    eapply pending_objects; [exact Ht| |exact E]. eapply pending_frame; [| | |exact IH]; reflexivity.
  - unfold serialize_release in E; cbv zeta in E. destruct (contract_data_of b (ci_handle c)); try (injection E as _ <-; exact IH).
    destruct (ser_contract (ci_ty c)) as [fc| |]; try (injection E as _ <-; exact IH).
    eapply pending_objects; [exact Ht| |exact E]. eapply pending_frame; [| | |exact IH]; reflexivity.
Qed.
Lemma rewrite_same : forall b t look mk pairs states,
  NoDup (map snd pairs) -> (forall h i, In (h, i) pairs -> nth_error states i = Some None) ->
  rewrite_release b t look mk pairs states = rewrite_states b t look mk pairs states /\
  forall st, rewrite_states b t look mk pairs states = Ok st -> forall i, ~ In i (map snd pairs) -> nth_error st i = nth_error states i.
Proof.
  intros b t look mk. induction pairs as [|[h i] pairs IH]; intros states N P; cbn [rewrite_release rewrite_states].
  - split; [reflexivity|]. intros st E. injection E as <-. auto.
  - cbn [map snd] in N. inversion N as [|x y N1 N2]; subst.
    assert (Hi : nth_error states i = Some None) by (apply (P h); left; reflexivity). rewrite Hi.
    destruct (state_get b t h) as [v|e|]; try (split; [reflexivity|discriminate]).
    destruct (look v) as [j|]; [|split; [reflexivity|discriminate]].
    destruct (IH (list_set states i (Some (mk j))) N2) as [A B].
    { intros h' i' K. rewrite nth_error_list_set_neq; [apply (P h'); right; exact K|].
      intros E. apply N1. apply in_map_iff. exists (h', i'). split; [cbn; congruence|exact K]. }
    split; [exact A|]. intros st E k K. rewrite (B st E k) by (intros L; apply K; right; exact L).
    apply nth_error_list_set_neq. intros E'. apply K. left. cbn. congruence.
Qed.

(** The debug assertion in [finish] never fires: both builds write the same, or panic for the
    same reason, after any calls of [serialize]. *)
Theorem C58_assertion_never_fires : forall b s ordc ordo,
  reach b -> serializing b s -> Permutation ordc (hm_cstates s) -> Permutation ordo (hm_ostates s) ->
  finish_release b s ordc ordo = ser_finish b s ordc ordo.
Proof.
  intros b s ordc ordo Hb H Pc Po. destruct (serializing_pending b s Hb H) as [P1 P2 P3].
  apply nodup_two in P3. destruct P3 as [Q1 [Q2 Q3]]. unfold finish_release, ser_finish.
  destruct (rewrite_same b (TPrim TContractDataHandle) (look_contract s) (fun j => FContractDataHandle (as_u16 j)) ordc (sr_states s)) as [A A'].
  { eapply Permutation_NoDup; [|exact Q1]. apply Permutation_map. apply Permutation_sym. exact Pc. }
  { intros h i K. apply (P1 h). eapply Permutation_in; eauto. }
  rewrite A. destruct (rewrite_states b (TPrim TContractDataHandle) (look_contract s) (fun j => FContractDataHandle (as_u16 j)) ordc (sr_states s)) as [st|e|]; auto.
  destruct (rewrite_same b (TPrim TObjectHandle) (look_object s) (fun j => FObjectHandle (as_u32 j)) ordo st) as [B _].
  { eapply Permutation_NoDup; [|exact Q2]. apply Permutation_map. apply Permutation_sym. exact Po. }
  { intros h i K. assert (L : In (h, i) (hm_ostates s)) by (eapply Permutation_in; eauto).
    rewrite (A' st eq_refl); [apply (P2 h); exact L|]. intros M.
    assert (M' : In i (map snd (hm_cstates s))) by (eapply Permutation_in; [apply Permutation_map; exact Pc|exact M]).
    apply (Q3 i M'). apply in_map_iff. exists (h, i). auto. }
  rewrite B. reflexivity.
Qed.
Print Assumptions C58_assertion_never_fires.

(** A history whose saving has entries in both maps, with the two builds agreeing. *)
Definition rlOps : list bop :=
  [BRegister rtM; BRegister rtN; BCreate (mkCinst rtN (rtI 1)) (rtVals 7 0 1065353216 0) [];
   BCreate (mkCinst rtM (rtI 0)) [PPrim (VString Coq.Strings.String.EmptyString); PPrim (VObjectHandle (rtI 1))] []].
Definition rlB : baseline := snd (brun (baseline_new KMain) rlOps).
Definition rlS1 : ser := snd (serialize_release rlB ser_new (mkCinst rtN (rtI 1)) [rtI 0]).
Definition rlS : ser := snd (serialize rlB rlS1 (mkCinst rtM (rtI 0)) [rtI 1]).
Lemma C58_saving_met :
  reach rlB /\ serializing rlB rlS /\
  fst (serialize_release rlB ser_new (mkCinst rtN (rtI 1)) [rtI 0]) = Ok tt /\
  length (hm_cstates rlS) = 1 /\ length (hm_ostates rlS) = 2 /\
  exists fb, finish_release rlB rlS (hm_cstates rlS) (hm_ostates rlS) = Ok (Some fb).
Proof.
  split; [|split; [|split; [|split; [|split]]]].
  - exists KMain, rlOps. apply bops_ok_steps. vm_compute. repeat split; repeat constructor.
  - eapply serializing_debug; [|apply surjective_pairing]. eapply serializing_release; [|apply surjective_pairing]. apply serializing_new.
  - vm_compute. reflexivity.
  - vm_compute. reflexivity.
  - vm_compute. reflexivity.
  - eexists. vm_compute. reflexivity.
Qed.
(** A program that saves the same contract over and over meets the 65536th. *)
Lemma C58_the_65536th_contract_met :
  exists sr, serializing rlB sr /\ N.of_nat (length (sr_contracts sr)) = 65535%N /\
    con_at rlB (ci_handle (mkCinst rtN (rtI 1))) <> None /\ (forall p, ~ In (TVec p) (ct_states (ci_ty (mkCinst rtN (rtI 1))))) /\
    (forall o i, In o [rtI 0] -> i < length (ct_states (ci_ty (mkCinst rtN (rtI 1)))) -> field_of rlB (mkCinst rtN (rtI 1)) i o <> None).
Proof.
  assert (K : forall n, exists sr, serializing rlB sr /\ length (sr_contracts sr) = n).
  { induction n as [|n [sr [A B]]].
    - exists ser_new. split; [apply serializing_new|reflexivity].
    - exists (snd (serialize_release rlB sr (mkCinst rtN (rtI 1)) [])).
      split; [eapply serializing_release; [exact A|apply surjective_pairing]|].
      unfold serialize_release. assert (E : contract_data_of rlB (ci_handle (mkCinst rtN (rtI 1))) = Ok (mkCdata (ct_id rtN) [rtI 0])) by (vm_compute; reflexivity).
      rewrite E. assert (F : exists fc, ser_contract (ci_ty (mkCinst rtN (rtI 1))) = Ok fc) by (eexists; vm_compute; reflexivity).
      destruct F as [fc F]. rewrite F. cbv zeta. cbn [ser_objects snd sr_contracts]. rewrite app_length, B. cbn [length]. lia. }
  destruct (K (N.to_nat 65535)) as [sr [A B]]. exists sr. split; [exact A|]. split; [rewrite B; apply N2Nat.id|].
  split; [vm_compute; discriminate|]. split.
  - intros p H. cbn in H. repeat destruct H as [H|H]; try discriminate; exact H.
  - intros o i [<-|[]] Hi. cbn in Hi. do 4 (destruct i as [|i]; [vm_compute; discriminate|]). lia.
Qed.

(** ** Field iterators *)

(** [nth] agrees wherever the debug build does not panic; where [pos + n] overflows, the debug
    build panics, and the release build returns an item (of the wrong field, C21) although
    fewer than [n] remain; only at the end of the iterator it panics too. *)
Theorem C58_nth : forall types h p n, p <= length types -> (N.of_nat (length types) < 2 ^ 64)%N ->
  ((N.of_nat (p + n) < 2 ^ 64)%N -> nth_release types (mkIter h p) n = iter_nth types (mkIter h p) n) /\
  ((2 ^ 64 <= N.of_nat (p + n))%N -> (N.of_nat n < 2 ^ 64)%N ->
     iter_nth types (mkIter h p) n = (Panic, mkIter h p) /\
     nth_release types (mkIter h p) n =
       match nth_error types p with
       | Some t => (Ok (Some (mkPid t (S p) h)), mkIter h (S p))
       | None => (Panic, mkIter h p)
       end).
Proof.
  intros types h p n Hp Hl. change (2 ^ 64)%N with 18446744073709551616%N in *.
  unfold nth_release, iter_nth. cbn [pi_pos pi_contract]. split.
  - intros H. rewrite N.mod_small by exact H.
    destruct (N.leb_spec 18446744073709551616 (N.of_nat (p + n))); [lia|].
    destruct (N.leb_spec (N.of_nat (length types)) (N.of_nat (p + n))), (Nat.leb_spec (length types) (p + n)); try lia; reflexivity.
  - intros H Hn. destruct (N.leb_spec 18446744073709551616 (N.of_nat (p + n))); [|lia]. split; [reflexivity|].
    assert (E : (N.of_nat (p + n) mod 18446744073709551616 = N.of_nat (p + n) - 18446744073709551616)%N).
    { replace (N.of_nat (p + n)) with (N.of_nat (p + n) - 18446744073709551616 + 1 * 18446744073709551616)%N at 1 by lia.
      rewrite N.mod_add by discriminate. apply N.mod_small. lia. }
    rewrite E. destruct (N.leb_spec (N.of_nat (length types)) (N.of_nat (p + n) - 18446744073709551616)); [lia|reflexivity].
Qed.
Print Assumptions C58_nth.
(** [nth(usize::MAX)] after one [next]. *)
Lemma C58_nth_met : exists n, (N.of_nat n < 2 ^ 64)%N /\ (2 ^ 64 <= N.of_nat (1 + n))%N.
Proof. exists (N.to_nat 18446744073709551615). rewrite N2Nat.id, Nat2N.inj_add, N2Nat.id. split; reflexivity || (intro; discriminate). Qed.
