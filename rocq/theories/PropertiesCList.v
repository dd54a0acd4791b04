(** C45: keyframe lists and channels over the C boundary behave as plain lists. *)
From Verif Require Import CListProofs.
From Coq Require Import Lia Permutation.
Open Scope nat_scope.

(** A C program that owns each thing once observes exactly what it would observe of
    plain lists: the same values, times, lengths and orders, whatever mixture of
    boxes, keyframes, lists and channels it handles; it aborts exactly where an index
    is out of range; and it never runs into undefined behaviour. *)
Theorem C45_lists_are_lists srt p seen e : sorts srt ->
  plain_run srt nothing p = (seen, e) -> e <> Invalid ->
  (e = Crashed -> client_run srt nothing [] p = (seen, Crashed)) /\
  (e <> Crashed -> exists E H, client_run srt nothing [] p = (seen, Finished (E, H))).
Proof.
  intros So P N. pose proof (sim_run srt So p _ _ _ _ _ rel_nothing P) as S.
  destruct e as [s'| |]; [|split; [intros _; exact S|congruence]|congruence].
  split; [discriminate|]. intros _. destruct S as (E & H & S & _). eauto.
Qed.
Print Assumptions C45_lists_are_lists.

(** The hypothesis on the sort can be met. *)
Lemma cmp_ge_anti : forall a b, key_cmp a b = CompOpp (key_cmp b a).
Proof. intros a b. unfold key_cmp, f64_partial_cmp. destruct (f64_key (k_time a)), (f64_key (k_time b)); auto. apply Z.compare_antisym. Qed.
Lemma key_insert_perm' k l : Permutation (k :: l) (key_insert k l).
Proof. induction l as [|x l IH]; cbn; auto. destruct (key_cmp k x); auto. rewrite perm_swap. constructor. auto. Qed.
Lemma key_sort_perm' l : Permutation l (key_sort l).
Proof. induction l as [|k l IH]; cbn; [constructor|]. apply perm_trans with (k :: key_sort l); [constructor; exact IH|apply key_insert_perm']. Qed.
Lemma tp_sub {A} (cmp : A -> A -> comparison) l l' : (forall a, In a l' -> In a l) -> total_preorder cmp l -> total_preorder cmp l'.
Proof. intros I [A1 A2]. split; eauto. Qed.
Lemma key_insert_sorted' k l : total_preorder key_cmp (k :: l) -> sorted_by key_cmp l -> sorted_by key_cmp (key_insert k l).
Proof.
  induction l as [|x l IH]; intros T S; [repeat constructor|]. pose proof T as [An Tr]. cbn [key_insert].
  pose proof S as S0. destruct S as [Hx S]. rewrite Forall_forall in Hx.
  assert (Sm : forall c, key_cmp k x = c -> c <> Gt -> sorted_by key_cmp (k :: x :: l)).
  { intros c Ec N. split; [|exact S0]. constructor; [congruence|]. rewrite Forall_forall. intros y Hy. apply (Tr k x y); cbn; auto; congruence. }
  destruct (key_cmp k x) eqn:Ec; try (eapply Sm; [reflexivity|discriminate]).
  split.
  - rewrite Forall_forall. intros y Hy. apply (Permutation_in _ (Permutation_sym (key_insert_perm' k l))) in Hy.
    destruct Hy as [<-|Hy]; [|auto]. rewrite cmp_ge_anti, Ec. discriminate.
  - apply IH; auto. eapply tp_sub; [|exact T]. cbn. intuition.
Qed.
Lemma key_sort_sorts : sorts key_sort.
Proof.
  intros l. split; [apply key_sort_perm'|]. induction l as [|k l IH]; cbn; auto. intros T. apply key_insert_sorted'.
  - eapply tp_sub; [|exact T]. intros a [<-|Ha]; [now left|]. right. eapply Permutation_in; [apply Permutation_sym, key_sort_perm'|exact Ha].
  - apply IH. eapply tp_sub; [|exact T]. cbn. auto.
Qed.

(** A program: make the keyframes of [l] one after another and append them to list 0. *)
Definition append (l : list (dynprim * Z)) : list stmt :=
  flat_map (fun '(v, time) => [SValue 1 v; SKey 1 1 time; SPush 0 1]) l.
Definition of_type (t : prim) (l : list (dynprim * Z)) : Prop := Forall (fun q => dynprim_type (fst q) = TPrim t) l.
Definition keys_of (l : list (dynprim * Z)) : list keyframe := map (fun q => mkKey (PPrim (fst q)) (snd q)) l.

Lemma append_plain srt t l : of_type t l -> forall s ks, s 0 = Some (Keys t ks) -> s 1 = None ->
  exists s', s' 0 = Some (Keys t (ks ++ keys_of l)) /\ (forall z, z <> 0 -> s' z = s z) /\
    forall p, plain_run srt s (append l ++ p) = plain_run srt s' p.
Proof.
  unfold append. intros F. induction F as [|[v z] l T F IH]; intros s ks S0 S1.
  - exists s. rewrite app_nil_r. auto.
  - cbn [fst] in T.
    pose (s1 := set s 1 (Some (Value v))).
    pose (s2 := set (set s1 1 None) 1 (Some (Key (mkKey (PPrim v) z)))).
    pose (s3 := set (set s2 1 None) 0 (Some (Keys t (ks ++ [mkKey (PPrim v) z])))).
    destruct (IH s3 (ks ++ [mkKey (PPrim v) z])) as (s' & E0 & Er & Rn); [reflexivity|reflexivity|].
    exists s'. split; [|split].
    + rewrite E0. cbn [keys_of map fst snd]. now rewrite <- app_assoc.
    + intros w N. rewrite Er by exact N. unfold s3, s2, s1, set. destruct (Nat.eqb_spec w 0); [congruence|]. destruct (Nat.eqb_spec w 1); congruence.
    + intros p. rewrite <- Rn. cbn [flat_map]. rewrite <- !app_assoc. cbn [app plain_run plain].
      rewrite S1. fold s1.
      assert (A1 : s1 1 = Some (Value v)) by reflexivity. rewrite A1.
      assert (A2 : set s1 1 None 1 = None) by reflexivity. rewrite A2. fold s2.
      assert (A3 : s2 0 = Some (Keys t ks)) by exact S0. rewrite A3.
      assert (A4 : s2 1 = Some (Key (mkKey (PPrim v) z))) by reflexivity. rewrite A4.
      unfold key_type. cbn [k_value]. assert (A5 : prop_type (PPrim v) = TPrim t) by (rewrite <- T; reflexivity). rewrite A5, ptype_eqb_refl.
      fold s3. destruct (plain_run srt s3 _) as [q e]. reflexivity.
Qed.
Lemma built srt t l p : of_type t l -> exists s, s 0 = Some (Keys t (keys_of l)) /\ (forall z, z <> 0 -> s z = None) /\
  plain_run srt nothing (SKeys 0 t :: append l ++ p) = plain_run srt s p.
Proof.
  intros F. destruct (append_plain srt t l F (set nothing 0 (Some (Keys t []))) [] eq_refl eq_refl) as (s' & E0 & Er & R).
  exists s'. split; [exact E0|]. split; [intros z N; rewrite Er by exact N; unfold set; destruct (Nat.eqb_spec z 0); [congruence|reflexivity]|].
  cbn [plain_run plain nothing]. rewrite R. destruct (plain_run srt s' p). reflexivity.
Qed.
Lemma shown_all_keys l : shown_all (keys_of l) = Some l.
Proof. induction l as [|[v z] l IH]; [reflexivity|]. cbn [keys_of map shown_all]. fold (keys_of l). rewrite IH. reflexivity. Qed.

(** Element [i] of a list is the [i]-th keyframe appended; reading beyond the end
    ends the process. *)
Theorem C45_element_is_what_was_pushed srt t l i : sorts srt -> of_type t l ->
  match nth_error l i with
  | Some (v, time) =>
      exists E H, client_run srt nothing [] (SKeys 0 t :: append l ++ [ShowLen 0; ShowAt 0 i]) =
                  ([OLen (length l); OKey v time], Finished (E, H))
  | None => client_run srt nothing [] (SKeys 0 t :: append l ++ [ShowLen 0; ShowAt 0 i]) = ([OLen (length l)], Crashed)
  end.
Proof.
  intros So F. destruct (built srt t l [ShowLen 0; ShowAt 0 i] F) as (s & S0 & _ & R).
  assert (Ln : length (keys_of l) = length l) by apply map_length.
  assert (Ni : nth_error (keys_of l) i = option_map (fun q => mkKey (PPrim (fst q)) (snd q)) (nth_error l i)) by apply nth_error_map.
  destruct (nth_error l i) as [[v z]|]; cbn [option_map fst snd] in Ni.
  - assert (Q : plain_run srt s [ShowLen 0; ShowAt 0 i] = ([OLen (length l); OKey v z], Finished s)).
    { cbn [plain_run plain]. rewrite S0, Ln, S0, Ni. reflexivity. }
    rewrite Q in R. apply (C45_lists_are_lists srt _ _ _ So R ltac:(discriminate)). discriminate.
  - assert (Q : plain_run srt s [ShowLen 0; ShowAt 0 i] = ([OLen (length l)], Crashed)).
    { cbn [plain_run plain]. rewrite S0, Ln, S0, Ni. reflexivity. }
    rewrite Q in R. now apply (C45_lists_are_lists srt _ _ _ So R ltac:(discriminate)).
Qed.
Print Assumptions C45_element_is_what_was_pushed.

(** A channel made from a list lists the same keyframes, and in the order of their
    times when none is NaN. *)
Definition f64_le (a b : Z) : Prop := exists x y, f64_key a = Some x /\ f64_key b = Some y /\ (x <= y)%Z.
Theorem C45_channel_lists_sorted srt t l mut : sorts srt -> of_type t l ->
  exists listed E H,
    client_run srt nothing [] (SKeys 0 t :: append l ++ [SChan 0 0; ShowChan mut 0]) = ([OKeys listed], Finished (E, H)) /\
    Permutation l listed /\
    ((forall v time, In (v, time) l -> f64_key time <> None) ->
     forall i j v w a b, i < j -> nth_error listed i = Some (v, a) -> nth_error listed j = Some (w, b) -> f64_le a b).
Proof.
  intros So F. destruct (built srt t l [SChan 0 0; ShowChan mut 0] F) as (s & S0 & _ & R).
  destruct (So (keys_of l)) as [Pm Srt].
  apply Permutation_sym in Pm. pose proof (Permutation_map_inv _ _ Pm) as (l' & El & Pl).
  exists l'. fold (keys_of l') in El.
  assert (Q0 : exists s', plain_run srt s [SChan 0 0; ShowChan mut 0] = ([OKeys l'], Finished s')).
  { cbn [plain_run plain]. rewrite S0. unfold set at 1. cbn [Nat.eqb]. unfold set at 1. cbn [Nat.eqb]. rewrite El, shown_all_keys. cbn [note]. eauto. }
  destruct Q0 as (s' & Q0). rewrite Q0 in R.
  destruct (C45_lists_are_lists srt _ _ _ So R ltac:(discriminate)) as [_ Q]. destruct (Q ltac:(discriminate)) as (E & H & C).
  exists E, H. split; [exact C|]. split; [exact Pl|].
  intros Nn.
  assert (T : total_preorder key_cmp (keys_of l)).
  { assert (K : forall k, In k (keys_of l) -> f64_key (k_time k) <> None).
    { intros k Hk. apply in_map_iff in Hk. destruct Hk as ([v z] & <- & Hk). exact (Nn v z Hk). }
    split; [intros; apply cmp_ge_anti|]. intros a b c Ha Hb Hc. apply K in Ha. apply K in Hb. apply K in Hc.
    unfold key_cmp, f64_partial_cmp. destruct (f64_key (k_time a)), (f64_key (k_time b)), (f64_key (k_time c)); try congruence.
    rewrite !Z.compare_gt_iff. lia. }
  specialize (Srt T). rewrite El in Srt. clear - Srt Nn Pl.
  assert (K : forall v z, In (v, z) l' -> f64_key z <> None).
  { intros v z Hk. apply (Nn v). eapply Permutation_in; [apply Permutation_sym; exact Pl|exact Hk]. }
  clear Nn Pl. induction l' as [|[v0 z0] l' IH]; intros [|i] [|j] v w a b Lt A B; try discriminate; try lia; cbn [nth_error] in A, B.
  - injection A as <- <-. destruct Srt as [Fa _]. rewrite Forall_forall in Fa.
    specialize (Fa (mkKey (PPrim w) b)). cbn in Fa. 
    assert (I : In (w, b) l') by (eapply nth_error_In; exact B).
    assert (Ik : In (mkKey (PPrim w) b) (keys_of l')) by (apply in_map_iff; exists (w, b); auto).
    apply Fa in Ik. unfold key_cmp, f64_partial_cmp in Ik. cbn [k_time] in Ik. unfold f64_le.
    pose proof (K v0 z0 (or_introl eq_refl)) as K0. pose proof (K w b (or_intror I)) as K1.
    destruct (f64_key z0) as [x|], (f64_key b) as [y|]; try congruence. exists x, y. repeat split; auto.
  - eapply (IH (proj2 Srt)); [intros; eapply K; right; eauto| |exact A|exact B]. lia.
Qed.
Print Assumptions C45_channel_lists_sorted.

(** A program that owns each thing once and gives everything back leaves nothing on
    the native heap, except one pointer array for each non-empty channel it listed:
    there is no function to free those. *)
Definition live_cells (H : heap) : nat := length (filter (fun c => match c with Some _ => true | None => false end) H).
Definition listings (seen : list obs) : nat :=
  length (filter (fun o => match o with OKeys (_ :: _) => true | _ => false end) seen).
Definition nrefs (H : heap) : nat := length (filter (fun c => match c with Some (LRefs _) => true | _ => false end) H).
Lemma nrefs_app H c : nrefs (H ++ [Some c]) = nrefs H + match c with LRefs _ => 1 | _ => 0 end.
Proof. unfold nrefs. rewrite filter_app, app_length. cbn. destruct c; reflexivity. Qed.
Definition plainc (c : option cell) : Prop := match c with Some (LRefs _) => False | _ => True end.
Lemma nrefs_set H a c : plainc (look H a) -> plainc c -> nrefs (list_set H a c) = nrefs H.
Proof.
  unfold look. revert a. induction H as [|h H IH]; intros [|a] L P; try reflexivity; cbn in L.
  - unfold nrefs. cbn. destruct c as [[]|], h as [[]|]; cbn in *; try contradiction; reflexivity.
  - unfold nrefs in *. cbn [list_set filter]. destruct h as [[]|]; cbn [length]; rewrite IH; auto.
Qed.
Lemma nrefs_free H a c : look H a = Some c -> plainc (Some c) -> nrefs (free H a) = nrefs H.
Proof. intros L P. apply nrefs_set; [now rewrite L|exact I]. Qed.
Lemma step_refs srt H c r H' : step srt H c = Done r H' ->
  nrefs H' = nrefs H + match r with RRefs (Some _) _ => 1 | _ => 0 end.
Proof.
  assert (Kf : forall t p a k, owned_kf H t p = Some (a, k) -> look H a = Some (LKf k)).
  { intros t q a k; destruct q as [b|? ?|? ?|?]; cbn; try discriminate. unfold kf_of. cbn. destruct (look H b) as [[]|] eqn:L; try discriminate.
    destruct (ptype_eqb _ _); [|discriminate]. intros [= <- <-]. exact L. }
  assert (Bf : forall v ks b, slots_of H v = Some ks -> v_ptr v = Some b -> look H b = Some (LBuf ks (v_cap v))).
  { intros v ks b S Eb. unfold slots_of in S. rewrite Eb in S. destruct (look H b) as [[]|]; try discriminate. destruct (_ && _) eqn:A; [|discriminate].
    injection S as <-. apply andb_prop in A as [_ A]. apply Nat.eqb_eq in A. now rewrite A. }
  intros St. destruct c; cbn [step] in St.
  - unfold new_box in St. cbn in St. injection St as <- <-. rewrite nrefs_app. reflexivity.
  - destruct p; try discriminate. destruct (look H a) as [[]|] eqn:L; try discriminate. injection St as <- <-. rewrite (nrefs_free _ _ _ L I). lia.
  - destruct (val_at H p); [injection St as <- <-; lia|discriminate].
  - unfold owned_val in St. destruct v; try discriminate. destruct (look H a) as [[]|] eqn:L; try discriminate. destruct (ptype_eqb _ _); [|discriminate].
    unfold new_box in St. cbn in St. injection St as <- <-. rewrite nrefs_app, (nrefs_free _ _ _ L I). reflexivity.
  - destruct (owned_kf H t p) as [[a k]|] eqn:O; [|discriminate]. injection St as <- <-. rewrite (nrefs_free _ _ _ (Kf _ _ _ _ O) I). lia.
  - destruct (kf_of H t p); [injection St as <- <-; lia|discriminate].
  - destruct (kf_of H t p); [injection St as <- <-; lia|discriminate].
  - injection St as <- <-. lia.
  - destruct (slots_of H v) as [ks|] eqn:Sl; [|discriminate]. destruct (owned_kf H (v_ty v) item) as [[a k]|] eqn:O; [|discriminate].
    apply Kf in O. destruct (v_ptr v) as [b|] eqn:Pb.
    + pose proof (Bf _ _ _ Sl Pb) as Lb.
      assert (Lb' : look (free H a) b = Some (LBuf ks (v_cap v))).
      { rewrite look_free. destruct (Nat.eqb_spec a b); [subst; congruence|exact Lb]. }
      destruct (v_len v <? v_cap v); cbn in St; injection St as <- <-.
      * unfold put. rewrite nrefs_set; [|rewrite Lb'; exact I|exact I]. rewrite (nrefs_free _ _ _ O I). lia.
      * rewrite nrefs_app, (nrefs_free _ _ _ Lb' I), (nrefs_free _ _ _ O I). reflexivity.
    + cbn in St. injection St as <- <-. rewrite nrefs_app, (nrefs_free _ _ _ O I). reflexivity.
  - destruct (slots_of H v); [|discriminate]. destruct (v_ptr v); [|discriminate]. destruct (idx <? v_len v); [|discriminate]. injection St as <- <-. lia.
  - destruct (slots_of H v) as [ks|] eqn:Sl; [|discriminate]. destruct (owned_kf H (v_ty v) value) as [[a k]|] eqn:O; [|discriminate].
    apply Kf in O. destruct (v_ptr v) as [b|] eqn:Pb; [|discriminate]. destruct (idx <? v_len v); [|discriminate]. injection St as <- <-.
    pose proof (Bf _ _ _ Sl Pb) as Lb. unfold put. rewrite nrefs_set; [|rewrite look_free; destruct (a =? b); [exact I|rewrite Lb; exact I]|exact I].
    rewrite (nrefs_free _ _ _ O I). lia.
  - destruct (slots_of H v) as [ks|] eqn:Sl; [|discriminate]. injection St as <- <-. unfold free_buf. destruct (v_ptr v) eqn:Pb; [|lia].
    rewrite (nrefs_free _ _ _ (Bf _ _ _ Sl Pb) I). lia.
  - destruct (slots_of H v) as [ks|] eqn:Sl; [|discriminate]. unfold new_box in St. cbn in St. injection St as <- <-. rewrite nrefs_app.
    unfold free_buf. destruct (v_ptr v) eqn:Pb; [|reflexivity]. rewrite (nrefs_free _ _ _ (Bf _ _ _ Sl Pb) I). reflexivity.
  - unfold chan_of in St. destruct p; try discriminate. destruct (look H a) as [[]|] eqn:L; try discriminate. destruct (ptype_eqb _ _); [|discriminate].
    injection St as <- <-. rewrite (nrefs_free _ _ _ L I). lia.
  - destruct (chan_of H t p) as [[a c]|]; [|discriminate]. destruct (length (ch_keys c)); cbn in St; injection St as <- <-; [lia|]. now rewrite nrefs_app.
  - destruct (chan_of H t p) as [[a c]|]; [|discriminate]. destruct (length (ch_keys c)); cbn in St; injection St as <- <-; [lia|]. now rewrite nrefs_app.
  - destruct p; [|discriminate]. destruct (look H n) as [[]|]; try discriminate. destruct (nth_error ps i); [|discriminate]. injection St as <- <-. lia.
Qed.

Lemma call_refs srt H c p H' : call_ptr srt H c = Ran (p, H') -> nrefs H' = nrefs H.
Proof.
  unfold call_ptr. destruct (step srt H c) as [[| | | | |] H1| |] eqn:S; try discriminate. intros [= <- <-]. apply step_refs in S. lia.
Qed.
Lemma read_refs1 srt H t p v z H' : read_key srt H t p = Ran (v, z, H') -> nrefs H' = nrefs H.
Proof.
  unfold read_key. destruct (step srt H _) as [[| | | | |] H1| |] eqn:S1; try discriminate.
  destruct (step srt H1 _) as [[| | | | |] H2| |] eqn:S2; try discriminate.
  destruct (step srt H2 _) as [[| | | | |] H3| |] eqn:S3; try discriminate. intros [= <- <- <-].
  apply step_refs in S1, S2, S3. lia.
Qed.
Lemma read_refs2 srt t r : forall n i H l H', read_refs srt H t r i n = Ran (l, H') -> nrefs H' = nrefs H /\ length l = n.
Proof.
  induction n as [|n IH]; intros i H l H'; cbn [read_refs]; [intros [= <- <-]; auto|].
  destruct (call_ptr srt H _) as [[p H1]| |] eqn:S1; try discriminate.
  destruct (read_key srt H1 t p) as [[[v z] H2]| |] eqn:S2; try discriminate.
  destruct (read_refs srt H2 t r (S i) n) as [[l' H3]| |] eqn:S3; try discriminate. intros [= <- <-].
  apply call_refs in S1. apply read_refs1 in S2. apply IH in S3. cbn. lia.
Qed.
Lemma client_refs srt E H c o E' H' : client srt E H c = Ran (o, E', H') ->
  nrefs H' = nrefs H + match o with Some (OKeys (_ :: _)) => 1 | _ => 0 end.
Proof.
  intros C. destruct c; cbn [client] in C.
  - destruct (call_ptr srt H _) as [[p H1]| |] eqn:S; try discriminate. injection C as <- <- <-. apply call_refs in S. lia.
  - destruct (E y) as [[]|]; try discriminate. destruct (call_ptr srt H _) as [[q H1]| |] eqn:S; try discriminate. injection C as <- <- <-. apply call_refs in S. lia.
  - cbn in C. injection C as <- <- <-. lia.
  - destruct (E x) as [[]|]; try discriminate. destruct (E y) as [[]|]; try discriminate.
    destruct (step srt H _) as [[| | | | |] H1| |] eqn:S; try discriminate. injection C as <- <- <-. apply step_refs in S. lia.
  - destruct (E x) as [[]|]; try discriminate. destruct (E y) as [[]|]; try discriminate.
    destruct (step srt H _) as [[| | | | |] H1| |] eqn:S; try discriminate. injection C as <- <- <-. apply step_refs in S. lia.
  - destruct (E y) as [[]|]; try discriminate. destruct (call_ptr srt H _) as [[q H1]| |] eqn:S; try discriminate. injection C as <- <- <-. apply call_refs in S. lia.
  - destruct (E x) as [[]|]; try discriminate;
    destruct (step srt H _) as [[| | | | |] H1| |] eqn:S; try discriminate; injection C as <- <- <-; apply step_refs in S; lia.
  - destruct (E x) as [[]|]; try discriminate;
    destruct (step srt H _) as [[| | | | |] H1| |] eqn:S; try discriminate; injection C as <- <- <-; apply step_refs in S; lia.
  - destruct (E x) as [[]|]; try discriminate. destruct (read_key _ _ _ _) as [[[v z] H2]| |] eqn:S2; try discriminate.
    injection C as <- <- <-. apply read_refs1 in S2. lia.
  - destruct (E x) as [[]|]; try discriminate. injection C as <- <- <-. lia.
  - destruct (E x) as [[]|]; try discriminate. destruct (call_ptr srt H _) as [[q H1]| |] eqn:S; try discriminate.
    destruct (read_key _ _ _ _) as [[[w z] H2]| |] eqn:S2; try discriminate.
    injection C as <- <- <-. apply read_refs1 in S2. apply call_refs in S. lia.
  - destruct (E x) as [[]|]; try discriminate.
    destruct (step srt H _) as [[| | | | |r n] H1| |] eqn:S; try discriminate.
    destruct (read_refs srt H1 t r 0 n) as [[l H2]| |] eqn:S2; try discriminate. injection C as <- <- <-.
    pose proof (step_refs _ _ _ _ _ S) as Rf. apply read_refs2 in S2. destruct S2 as [R2 Ln].
    assert (r = None <-> n = 0) as Rn.
    { destruct mut; cbn [step] in S; (destruct (chan_of H t p) as [[a c]|]; [|discriminate]); (destruct (length (ch_keys c)); cbn in S; injection S as <- <- _; split; congruence). }
    destruct r, l; cbn in Ln; try lia; exfalso; subst n.
    + assert (Some n0 = None) by (apply Rn; reflexivity). discriminate.
    + discriminate (proj1 Rn eq_refl).
Qed.
Lemma run_refs srt p : forall E H l E' H', client_run srt E H p = (l, Finished (E', H')) -> nrefs H' = nrefs H + listings l.
Proof.
  induction p as [|c p IH]; intros E H l E' H' C; cbn [client_run] in C.
  - injection C as <- <- <-. cbn. lia.
  - destruct (client srt E H c) as [[[o E1] H1]| |] eqn:Cc; try discriminate.
    destruct (client_run srt E1 H1 p) as [l1 e1] eqn:Cr. injection C as <- ->. apply IH in Cr. apply client_refs in Cc.
    rewrite Cr, Cc. unfold listings. destruct o as [[| | |[|]]|]; cbn; lia.
Qed.
Theorem C45_nothing_else_leaks srt p seen s' : sorts srt ->
  plain_run srt nothing p = (seen, Finished s') -> (forall x, s' x = None) ->
  exists E H, client_run srt nothing [] p = (seen, Finished (E, H)) /\ live_cells H = listings seen.
Proof.
  intros So P N. destruct (sim_run srt So p _ _ _ _ _ rel_nothing P) as (E & H & C & R). exists E, H. split; [exact C|].
  apply run_refs in C. cbn in C. rewrite <- C. unfold live_cells, nrefs.
  assert (A : forall c, In c H -> (match c with Some _ => true | None => false end) = (match c with Some (LRefs _) => true | _ => false end)).
  { intros [c|] I; [|reflexivity]. apply In_nth_error in I. destruct I as [a Ha].
    assert (L : look H a = Some c) by (unfold look; now rewrite Ha).
    destruct (r_live _ _ _ R a c L) as [[x (h & Eh & _)]|[ps ->]]; [|reflexivity].
    pose proof (r_holds _ _ _ R x) as Q. rewrite N, Eh in Q. contradiction. }
  clear - A. induction H as [|c H IH]; [reflexivity|]. cbn [filter]. rewrite <- (A c (or_introl eq_refl)).
  destruct c; cbn [length]; rewrite IH; auto; intros c' I; apply A; now right.
Qed.
Print Assumptions C45_nothing_else_leaks.

(** ** Pointers to elements *)
(** A struct that describes a list on the native heap. *)
Definition is_list (H : heap) (v : cvec) (ks : list keyframe) : Prop :=
  slots_of H v = Some ks /\ v_len v = length ks /\ Forall (fun k => key_type k = TPrim (v_ty v)) ks.
(** What the client reads through a keyframe pointer. *)
Definition reads (srt : list keyframe -> list keyframe) (H : heap) (t : prim) (p : ptr) (k : keyframe) : Prop :=
  exists v H', read_key srt H t p = Ran (v, k_time k, H') /\ shown k = Some (v, k_time k).

Lemma is_list_buf H v ks b : is_list H v ks -> v_ptr v = Some b -> look H b = Some (LBuf ks (v_cap v)).
Proof.
  intros (S & _). unfold slots_of in S. intros E. rewrite E in S. destruct (look H b) as [[]|]; try discriminate. destruct (_ && _) eqn:A; [|discriminate].
  injection S as <-. apply andb_prop in A as [_ A]. apply Nat.eqb_eq in A. now rewrite A.
Qed.
Lemma reads_of srt H t p k : kf_at H p = Some k -> key_type k = TPrim t -> reads srt H t p k.
Proof. intros K T. destruct (read_key_ok srt H t p k K T) as (v & Sh & Rd). exists v, H. auto. Qed.
Lemma owned_inv H t p a k : owned_kf H t p = Some (a, k) -> p = PBox a /\ look H a = Some (LKf k) /\ key_type k = TPrim t.
Proof.
  destruct p; cbn; try discriminate. unfold kf_of. cbn. destruct (look H a0) as [[]|] eqn:L; try discriminate.
  destruct (ptype_eqb_spec (prop_type (k_value k0)) (TPrim t)); [|discriminate]. intros [= <- <-]. auto.
Qed.

(** A push keeps the list's elements and adds one at the end; a pointer to an element
    taken before stays good exactly when there was spare capacity, which the client
    can read off the struct. *)
Theorem C45_push_and_element_pointers srt H v ks item v' H' : is_list H v ks ->
  step srt H (RVec__push v item) = Done (RVec v') H' ->
  exists k, reads srt H (v_ty v) item k /\ is_list H' v' (ks ++ [k]) /\
    forall i p, step srt H (RVec__get v i) = Done (RPtr p) H ->
      (v_len v < v_cap v -> forall e, nth_error ks i = Some e -> reads srt H' (v_ty v) p e) /\
      (v_cap v <= v_len v -> step srt H' (Keyframe__time (v_ty v) p) = UB).
Proof.
  intros Li St. pose proof Li as (Sl & Ln & F). cbn [step] in St. rewrite Sl in St.
  destruct (owned_kf H (v_ty v) item) as [[a k]|] eqn:O; [|discriminate]. destruct (owned_inv _ _ _ _ _ O) as (-> & La & T).
  exists k. split; [apply reads_of; [cbn; now rewrite La|exact T]|].
  rewrite (firstn_len ks _ Ln) in St.
  assert (F' : Forall (fun q => key_type q = TPrim (v_ty v)) (ks ++ [k])) by (apply Forall_app; auto).
  assert (Len : length (ks ++ [k]) = S (v_len v)) by (rewrite app_length; cbn; lia).
  destruct (v_ptr v) as [b|] eqn:Pb.
  - pose proof (is_list_buf _ _ _ _ Li Pb) as Lb. assert (Nab : a <> b) by (intros ->; congruence).
    destruct (Nat.ltb_spec (v_len v) (v_cap v)) as [Sp|Sp].
    + rewrite skipn_all2, app_nil_r in St by lia. injection St as <- <-.
      assert (Lb' : look (put (free H a) b (LBuf (ks ++ [k]) (v_cap v))) b = Some (LBuf (ks ++ [k]) (v_cap v))).
      { hlook. now rewrite Nat.eqb_refl. }
      split.
      * unfold is_list, slots_of. cbn [v_ptr v_len v_cap v_ty]. rewrite Lb', Len, Nat.leb_refl, Nat.eqb_refl. auto.
      * intros i p G. cbn [step] in G. rewrite Sl, Pb in G. destruct (i <? v_len v); [|discriminate]. injection G as <-.
        split; [|lia]. intros _ e Ne. apply reads_of.
        -- cbn [kf_at]. rewrite Lb', nth_error_app1; [exact Ne|]. exact (nth_error_lt _ _ _ Ne).
        -- rewrite Forall_forall in F. apply F. eapply nth_error_In. exact Ne.
    + cbn [alloc] in St. injection St as <- <-. split.
      * unfold is_list, slots_of. cbn [v_ptr v_len v_cap v_ty]. hlook. rewrite Nat.eqb_refl. rewrite Len, Nat.leb_refl, Nat.eqb_refl. auto.
      * intros i p G. cbn [step] in G. rewrite Sl, Pb in G. destruct (i <? v_len v); [|discriminate]. injection G as <-.
        split; [lia|]. intros _. cbn [step]. unfold kf_of. cbn [kf_at]. hlook. rewrite !free_length, Nat.eqb_refl.
        pose proof (look_lt _ _ _ Lb). destruct (Nat.eqb_spec (length H) b); [lia|reflexivity].
  - cbn [alloc] in St. injection St as <- <-. split.
    + unfold is_list, slots_of. cbn [v_ptr v_len v_cap v_ty]. hlook. rewrite Nat.eqb_refl. rewrite Len, Nat.leb_refl, Nat.eqb_refl. auto.
    + intros i p G. cbn [step] in G. rewrite Sl, Pb in G. discriminate.
Qed.
Print Assumptions C45_push_and_element_pointers.

(** Replacing element [i] changes what is read through pointers to element [i] only. *)
Theorem C45_set_replaces_one srt H v ks i item H' : is_list H v ks ->
  step srt H (RVec__set v i item) = Done RUnit H' ->
  exists k, reads srt H (v_ty v) item k /\ is_list H' v (firstn i ks ++ k :: skipn (S i) ks) /\
    forall j p, step srt H (RVec__get v j) = Done (RPtr p) H ->
      (j = i -> reads srt H' (v_ty v) p k) /\
      (j <> i -> forall e, nth_error ks j = Some e -> reads srt H' (v_ty v) p e).
Proof.
  intros Li St. pose proof Li as (Sl & Ln & F). cbn [step] in St. rewrite Sl in St.
  destruct (owned_kf H (v_ty v) item) as [[a k]|] eqn:O; [|discriminate]. destruct (owned_inv _ _ _ _ _ O) as (-> & La & T).
  exists k. split; [apply reads_of; [cbn; now rewrite La|exact T]|].
  destruct (v_ptr v) as [b|] eqn:Pb; [|discriminate].
  pose proof (is_list_buf _ _ _ _ Li Pb) as Lb. assert (Nab : a <> b) by (intros ->; congruence).
  destruct (Nat.ltb_spec i (v_len v)) as [Hi|]; [|discriminate]. injection St as <-. rewrite Ln in Hi.
  assert (Lb' : look (put (free H a) b (LBuf (list_set ks i k) (v_cap v))) b = Some (LBuf (list_set ks i k) (v_cap v))).
  { hlook. now rewrite Nat.eqb_refl. }
  split.
  - rewrite <- list_set_split by exact Hi. unfold is_list, slots_of. rewrite Pb, Lb', Ln, list_set_length, Nat.leb_refl, Nat.eqb_refl. auto using Forall_list_set.
  - intros j p G. cbn [step] in G. rewrite Sl, Pb in G. destruct (j <? v_len v); [|discriminate]. injection G as <-. split.
    + intros ->. apply reads_of; [|exact T]. cbn [kf_at]. rewrite Lb'. now apply nth_error_list_set_eq.
    + intros N e Ne. apply reads_of.
      * cbn [kf_at]. rewrite Lb', nth_error_list_set_neq; auto.
      * rewrite Forall_forall in F. apply F. eapply nth_error_In. exact Ne.
Qed.
Print Assumptions C45_set_replaces_one.

(** Copies of the struct are not copies of the list: of two pushes through two copies
    of one struct with spare capacity, the second overwrites the first's keyframe. *)
Theorem C45_struct_copy_is_not_a_list_copy_refuted srt H v ks i1 i2 v1 H1 v2 H2 : is_list H v ks ->
  0 < v_len v < v_cap v -> i1 <> i2 ->
  step srt H (RVec__push v i1) = Done (RVec v1) H1 ->
  step srt H1 (RVec__push v i2) = Done (RVec v2) H2 ->
  exists k1 k2, reads srt H (v_ty v) i1 k1 /\ reads srt H (v_ty v) i2 k2 /\ is_list H2 v1 (ks ++ [k2]).
Proof.
  intros Li Sp Ni S1 S2. pose proof Li as (Sl & Ln & F). pose proof S1 as S1'. cbn [step] in S1. rewrite Sl in S1.
  destruct (owned_kf H (v_ty v) i1) as [[a k]|] eqn:O; [|discriminate]. destruct (owned_inv _ _ _ _ _ O) as (-> & La & T).
  exists k. destruct (v_ptr v) as [b|] eqn:Pb.
  2: { unfold slots_of in Sl. rewrite Pb in Sl. destruct (Nat.eqb_spec (v_len v) 0); [lia|discriminate]. }
  pose proof (is_list_buf _ _ _ _ Li Pb) as Lb. assert (Nab : a <> b) by (intros ->; congruence).
  destruct (Nat.ltb_spec (v_len v) (v_cap v)) as [_|]; [|lia]. rewrite (firstn_len ks _ Ln), skipn_all2, app_nil_r in S1 by lia. injection S1 as <- <-.
  set (Hm := put (free H a) b (LBuf (ks ++ [k]) (v_cap v))) in *.
  assert (Lm : look Hm b = Some (LBuf (ks ++ [k]) (v_cap v))) by (unfold Hm; hlook; now rewrite Nat.eqb_refl).
  assert (Len : length (ks ++ [k]) = S (v_len v)) by (rewrite app_length; cbn; lia).
  cbn [step] in S2. unfold slots_of in S2. rewrite Pb, Lm, Len, Nat.eqb_refl in S2.
  destruct (Nat.leb_spec (v_len v) (S (v_len v))) as [_|]; [|lia]. cbn [andb] in S2.
  destruct (owned_kf Hm (v_ty v) i2) as [[a2 k2]|] eqn:O2; [|discriminate]. destruct (owned_inv _ _ _ _ _ O2) as (-> & La2 & T2).
  exists k2. assert (Na : a2 <> a) by congruence. assert (Nb2 : a2 <> b) by (intros ->; congruence).
  assert (La2' : look H a2 = Some (LKf k2)).
  { unfold Hm in La2. rewrite look_put, look_free in La2 by (rewrite free_length; eauto using look_lt). eqbs; congruence. }
  split; [apply reads_of; [cbn; now rewrite La|exact T]|]. split; [apply reads_of; [cbn; now rewrite La2'|exact T2]|].
  destruct (Nat.ltb_spec (v_len v) (v_cap v)) as [_|]; [|lia].
  rewrite firstn_app, (firstn_len ks _ Ln) in S2. replace (v_len v - length ks) with 0 in S2 by lia. cbn [firstn] in S2.
  rewrite app_nil_r, skipn_all2, app_nil_r in S2 by lia. injection S2 as <- <-.
  unfold is_list, slots_of. cbn [v_ptr v_len v_cap v_ty].
  assert (Lq : look (put (free Hm a2) b (LBuf (ks ++ [k2]) (v_cap v))) b = Some (LBuf (ks ++ [k2]) (v_cap v))).
  { rewrite look_put by (rewrite free_length; eauto using look_lt). now rewrite Nat.eqb_refl. }
  rewrite Lq, app_length. cbn [length]. rewrite Ln, Nat.add_1_r, Nat.leb_refl, Nat.eqb_refl. cbn [andb].
  repeat split. apply Forall_app; auto.
Qed.
Print Assumptions C45_struct_copy_is_not_a_list_copy_refuted.

(** ** The C# class *)
(** [v[index]] is element [index]; a negative index or one beyond the end does not
    throw: it ends the process.  On a disposed list it throws. *)
Theorem C45_csharp_indexer srt H v ks index : is_list H v ks -> (Z.of_nat (length ks) < 2 ^ 63)%Z -> (- 2 ^ 31 <= index < 2 ^ 31)%Z ->
  match nth_error ks (Z.to_nat index), (0 <=? index)%Z with
  | Some k, true => exists p, cs_get srt H (Some v) index = Ok_ p /\ reads srt H (v_ty v) p k
  | _, _ => cs_get srt H (Some v) index = Native_abort
  end /\ cs_get srt H None index = Throws.
Proof.
  intros Li Big Rg. split; [|reflexivity]. pose proof Li as (Sl & Ln & F). unfold cs_get. cbn [step]. rewrite Sl.
  assert (Out : (index < 0 \/ Z.of_nat (length ks) <= index)%Z ->
    match v_ptr v with Some a => if Z.to_nat (index mod 2 ^ 64) <? v_len v then Done (RPtr (PElt a (Z.to_nat (index mod 2 ^ 64)))) H else Abort | None => Abort end = Abort).
  { intros O. destruct (v_ptr v); [|reflexivity]. destruct (Nat.ltb_spec (Z.to_nat (index mod 2 ^ 64)) (v_len v)) as [Lt|]; [|reflexivity]. exfalso.
    destruct O as [O|O].
    - assert (index mod 2 ^ 64 = index + 2 ^ 64)%Z by (symmetry; apply (Zmod_unique _ _ (-1)); lia). lia.
    - rewrite Z.mod_small in Lt by lia. lia. }
  destruct (Z.leb_spec 0 index) as [Pos|Neg].
  - destruct (nth_error ks (Z.to_nat index)) as [k|] eqn:Nk.
    + pose proof (nth_error_lt _ _ _ Nk) as Lt. rewrite Z.mod_small by lia.
      destruct (v_ptr v) as [a|] eqn:Pb.
      2: { unfold slots_of in Sl. rewrite Pb in Sl. destruct (_ && _); [|discriminate]. injection Sl as <-. cbn in Lt. lia. }
      destruct (Nat.ltb_spec (Z.to_nat index) (v_len v)); [|lia]. eexists. split; [reflexivity|]. apply reads_of.
      * cbn [kf_at]. now rewrite (is_list_buf _ _ _ _ Li Pb).
      * rewrite Forall_forall in F. apply F. eapply nth_error_In. exact Nk.
    + rewrite Out; [reflexivity|]. right. apply nth_error_None in Nk. lia.
  - rewrite Out by auto. destruct (nth_error ks _); reflexivity.
Qed.
Print Assumptions C45_csharp_indexer.

(** [push] appends, writes the new struct back and empties the pushed wrapper; on a
    disposed element or list it throws and changes nothing. *)
Theorem C45_csharp_push srt H v ks p k : is_list H v ks -> owned_kf H (v_ty v) p <> None -> reads srt H (v_ty v) p k ->
  (exists v' H' , cs_push srt H (Some v) (Some p) = Ok_ (Some v', None, H') /\ is_list H' v' (ks ++ [k])) /\
  cs_push srt H (Some v) None = Throws /\ cs_push srt H None (Some p) = Throws.
Proof.
  intros Li O (w & H0 & Rd & Sh). split; [|auto].
  assert (D : exists v' H', step srt H (RVec__push v p) = Done (RVec v') H').
  { cbn [step]. destruct Li as (-> & _). destruct (owned_kf H (v_ty v) p) as [[a q]|]; [|congruence].
    destruct (v_ptr v); [destruct (_ <? _)|]; cbn [alloc]; eauto. }
  destruct D as (v' & H' & D). unfold cs_push. rewrite D. exists v', H'. split; [reflexivity|].
  destruct (C45_push_and_element_pointers srt H v ks p v' H' Li D) as (k' & (w' & H0' & Rd' & Sh') & L' & _).
  assert (k' = k); [|congruence]. rewrite Rd in Rd'.
  destruct k as [[x|x] z], k' as [[x'|x'] z']; cbn in *; try discriminate. congruence.
Qed.
Print Assumptions C45_csharp_push.

(** Nothing checks that the pushed keyframe is owned: an element of a list, taken with the
    indexer, is accepted by [push] of this or another list, and the native code then frees
    a part of a buffer. *)
Theorem C45_csharp_push_of_an_element_refuted srt H v ks index p u us : is_list H v ks -> is_list H u us ->
  cs_get srt H (Some v) index = Ok_ p -> cs_push srt H (Some u) (Some p) = Native_ub.
Proof.
  intros Lv Lu G. unfold cs_get in G. unfold cs_push. cbn [step] in *.
  destruct (slots_of H v); [|discriminate]. destruct (v_ptr v) as [a|]; [|discriminate].
  destruct (_ <? _); [|discriminate]. injection G as <-. cbn [owned_kf].
  destruct (slots_of H u); reflexivity.
Qed.
Print Assumptions C45_csharp_push_of_an_element_refuted.

(** ** Growth *)
(** The capacity after [n] pushes: a power of two, at least 4, less than twice [n]
    once beyond 4 -- so a pointer to an element is lost at pushes 5, 9, 17, ... only. *)
Inductive pushed (srt : list keyframe -> list keyframe) : heap -> cvec -> nat -> Prop :=
| pushed_new H t v : step srt H (RVec__new t) = Done (RVec v) H -> pushed srt H v 0
| pushed_more H v n H0 item v' H' : pushed srt H v n -> step srt H0 (RVec__push v item) = Done (RVec v') H' -> pushed srt H' v' (S n).
Theorem C45_capacity_doubles srt H v n : pushed srt H v n ->
  v_len v = n /\ (n = 0 -> v_cap v = 0) /\ (0 < n -> exists j, v_cap v = 4 * 2 ^ j /\ n <= v_cap v /\ (j = 0 \/ v_cap v < 2 * n)).
Proof.
  induction 1 as [H t v St|H v n H0 item v' H' P (L & Z0 & C) St]; cbn [step] in St.
  - injection St as <-. cbn. repeat split; auto. lia.
  - destruct (slots_of H0 v) as [sl|] eqn:Sl; [|discriminate]. destruct (owned_kf _ _ _) as [[a k]|]; [|discriminate].
    assert (Grow : v_cap v <= n -> exists j, grown (v_len v) (v_cap v) = 4 * 2 ^ j /\ S n <= grown (v_len v) (v_cap v) /\ (j = 0 \/ grown (v_len v) (v_cap v) < 2 * S n)).
    { intros Le. unfold grown. rewrite L. destruct n as [|n].
      - rewrite (Z0 eq_refl). exists 0. cbn. lia.
      - destruct C as (j & Cj & Cn & _); [lia|]. exists (S j). assert (1 <= 2 ^ j) by (pose proof (Nat.pow_nonzero 2 j); lia).
        rewrite Nat.pow_succ_r'. lia. }
    destruct (v_ptr v) as [b|] eqn:Pb.
    + destruct (Nat.ltb_spec (v_len v) (v_cap v)) as [Sp|Sp].
      * injection St as <- <-. cbn [v_len v_cap]. split; [lia|]. split; [discriminate|]. intros _.
        destruct n as [|n]; [specialize (Z0 eq_refl); lia|]. destruct C as (j & Cj & Cn & Cd); [lia|]. exists j. lia.
      * cbn [alloc] in St. injection St as <- <-. cbn [v_len v_cap]. split; [lia|]. split; [discriminate|]. intros _. apply Grow. lia.
    + unfold slots_of in Sl. rewrite Pb in Sl. destruct (Nat.eqb_spec (v_len v) 0); [|discriminate]. destruct (Nat.eqb_spec (v_cap v) 0); [|discriminate].
      cbn [alloc] in St. injection St as <- <-. cbn [v_len v_cap]. split; [lia|]. split; [discriminate|]. intros _. apply Grow. lia.
Qed.
Print Assumptions C45_capacity_doubles.

(** ** Not vacuous *)
(** A program with two lists, an assignment, a channel with three keyframes out of
    order and everything freed: observations 20 at 0.0 (after assignment), the channel
    sorted, one leaked array. *)
Definition f (z : Z) : Z := match z with 0%Z => 0%Z | 1%Z => 4607182418800017408%Z | _ => 4611686018427387904%Z end.
Definition demo : list stmt :=
  [SKeys 0 TU8; SKeys 2 TString; SValue 1 (VU8 7); ShowValue 1; SKey 1 1 (f 2); ShowKey 1; SPush 0 1;
   SValue 1 (VU8 8); SKey 3 1 (f 0); SPush 0 3; SValue 1 (VU8 9); SKey 1 1 (f 1); SPush 0 1;
   SValue 1 (VU8 20); SKey 1 1 (f 0); SAssign 0 1 1; ShowLen 0; ShowAt 0 1; SChan 4 0; ShowChan false 4; SFree 4; SFree 2].
Example C45_example :
  (exists s, plain_run key_sort nothing demo =
    ([OValue (VU8 7); OKey (VU8 7) (f 2); OLen 3; OKey (VU8 20) (f 0); OKeys [(VU8 20, f 0); (VU8 9, f 1); (VU8 7, f 2)]], Finished s) /\
    forall x, s x = None) /\
  (exists E H, client_run key_sort nothing [] demo =
    ([OValue (VU8 7); OKey (VU8 7) (f 2); OLen 3; OKey (VU8 20) (f 0); OKeys [(VU8 20, f 0); (VU8 9, f 1); (VU8 7, f 2)]], Finished (E, H)) /\
    live_cells H = 1) /\
  fst (client_run key_sort nothing [] (demo ++ [SKeys 0 TU8; ShowAt 0 0])) <> [] /\
  snd (client_run key_sort nothing [] (demo ++ [SKeys 0 TU8; ShowAt 0 0])) = Crashed.
Proof.
  assert (P : exists s, plain_run key_sort nothing demo =
    ([OValue (VU8 7); OKey (VU8 7) (f 2); OLen 3; OKey (VU8 20) (f 0); OKeys [(VU8 20, f 0); (VU8 9, f 1); (VU8 7, f 2)]], Finished s) /\
    forall x, s x = None).
  { eexists. split; [vm_compute; reflexivity|]. intros [|[|[|[|[|x]]]]]; reflexivity. }
  split; [exact P|]. destruct P as (s & P & N). split.
  - destruct (C45_nothing_else_leaks key_sort demo _ s key_sort_sorts P N) as (E & H & C & L). exists E, H. split; [exact C|]. rewrite L. reflexivity.
  - split; [vm_compute; discriminate|vm_compute; reflexivity].
Qed.
(** Lists with and without spare capacity, and two keyframes to push through two
    copies of one struct. *)
Example C45_pointer_example :
  exists H v k1 k2, is_list H v [mkKey (PPrim (VU8 1)) 0] /\ 0 < v_len v < v_cap v /\
    owned_kf H (v_ty v) (PBox k1) <> None /\ owned_kf H (v_ty v) (PBox k2) <> None /\ k1 <> k2 /\
  exists H' v', is_list H' v' (keys_of [(VU8 1, 0%Z); (VU8 2, 0%Z); (VU8 3, 0%Z); (VU8 4, 0%Z)]) /\ v_len v' = v_cap v'.
Proof.
  set (p := SKeys 0 TU8 :: append [(VU8 1, 0%Z)] ++ [SValue 1 (VU8 5); SKey 1 1 0; SValue 2 (VU8 6); SKey 2 2 0]).
  set (q := SKeys 0 TU8 :: append [(VU8 1, 0%Z); (VU8 2, 0%Z); (VU8 3, 0%Z); (VU8 4, 0%Z)]).
  assert (P : match client_run key_sort nothing [] p with
              | (_, Finished (E, H)) => E 0 = Some (HVec (mkCvec TU8 (Some 2) 1 4)) /\ H = [None; None; Some (LBuf [mkKey (PPrim (VU8 1)) 0] 4); None; Some (LKf (mkKey (PPrim (VU8 5)) 0)); None; Some (LKf (mkKey (PPrim (VU8 6)) 0))]
              | _ => False end) by (vm_compute; auto).
  assert (Q : match client_run key_sort nothing [] q with
              | (_, Finished (E, H)) => H = [None; None; Some (LBuf (keys_of [(VU8 1, 0%Z); (VU8 2, 0%Z); (VU8 3, 0%Z); (VU8 4, 0%Z)]) 4); None; None; None; None; None; None] /\ E 0 = Some (HVec (mkCvec TU8 (Some 2) 4 4))
              | _ => False end) by (vm_compute; auto).
  destruct (client_run key_sort nothing [] p) as [? [[E H]| |]]; try contradiction. destruct P as [_ Eh].
  destruct (client_run key_sort nothing [] q) as [? [[E' H']| |]]; try contradiction. destruct Q as [Eh' _].
  exists H, (mkCvec TU8 (Some 2) 1 4), 4, 6. rewrite Eh. split; [repeat constructor|]. cbn [v_len v_cap v_ty].
  repeat split; try lia; try (vm_compute; discriminate).
  exists H', (mkCvec TU8 (Some 2) 4 4). rewrite Eh'. split; [|reflexivity]. repeat split. repeat constructor.
Qed.
