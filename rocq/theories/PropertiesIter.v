(** C21: field iterators. *)
From Verif Require Import BaselineProofs.
Open Scope nat_scope.

(** The ids a contract has, written down directly: index [i], the [i]-th declared
    type, the contract's handle. *)
Definition all_ids (types : list ptype) (h : index) : list prop_id :=
  map (fun i => mkPid (nth i types (TPrim TU8)) i h) (seq 0 (length types)).

(** [k] calls of [next] on a fresh iterator. *)
Fixpoint nexts (k : nat) (types : list ptype) (it : prop_iter) : list (option prop_id) * prop_iter :=
  match k with
  | O => ([], it)
  | S k' => let '(x, it1) := iter_next types it in
            let '(xs, it2) := nexts k' types it1 in (x :: xs, it2)
  end.

Lemma nexts_state types h : forall k p,
  p <= length types ->
  pi_contract (snd (nexts k types (mkIter h p))) = h /\
  pi_pos (snd (nexts k types (mkIter h p))) = Nat.min (p + k) (length types) /\
  forall j, j < k -> nth_error (fst (nexts k types (mkIter h p))) j =
     Some (option_map (fun t => mkPid t (p + j) h) (nth_error types (p + j))).
Proof.
  induction k as [|k IH]; intros p Hp; cbn [nexts].
  - cbn [fst snd pi_pos pi_contract]. split; [auto|]. split; [lia|]. intros j Hj. lia.
  - unfold iter_next; cbn [pi_pos pi_contract]. destruct (nth_error types p) as [t|] eqn:E.
    + assert (Hlt : p < length types) by (apply nth_error_Some; congruence).
      destruct (IH (S p) Hlt) as [I1 [I2 I3]]. destruct (nexts k types (mkIter h (S p))) as [xs it2]. cbn [fst snd] in *.
      split; [auto|]. split; [lia|]. intros [|j] Hj; cbn [nth_error].
      * rewrite Nat.add_0_r, E. reflexivity.
      * rewrite I3 by lia. replace (S p + j) with (p + S j) by lia. reflexivity.
    + apply nth_error_None in E. destruct (IH p Hp) as [I1 [I2 I3]].
      destruct (nexts k types (mkIter h p)) as [xs it2]. cbn [fst snd] in *.
      split; [auto|]. split; [lia|]. intros [|j] Hj; cbn [nth_error].
      * replace (nth_error types (p + 0)) with (@None ptype); [reflexivity|].
        symmetry. apply nth_error_None. lia.
      * rewrite I3 by lia.
        replace (nth_error types (p + j)) with (@None ptype) by (symmetry; apply nth_error_None; lia).
        replace (nth_error types (p + S j)) with (@None ptype) by (symmetry; apply nth_error_None; lia).
        reflexivity.
Qed.

Lemma all_ids_nth types h i :
  nth_error (all_ids types h) i = option_map (fun t => mkPid t i h) (nth_error types i).
Proof.
  unfold all_ids. destruct (nth_error types i) as [t|] eqn:E.
  - pose proof (nth_error_lt _ _ _ E) as Hlt.
    rewrite (map_nth_error _ i (seq 0 (length types)) (d := i)).
    + rewrite (nth_error_nth _ _ _ E). reflexivity.
    + replace (Some i) with (Some (0 + i)) by reflexivity.
      rewrite (nth_error_nth' _ 0) by (rewrite seq_length; auto). rewrite seq_nth by auto. reflexivity.
  - apply nth_error_None in E. apply nth_error_None. rewrite map_length, seq_length. auto.
Qed.

(** Repeated [next] yields exactly the ids, in order, then [None] forever. *)
Theorem C21_next_enumerates_ids :
  forall types h k j, j < k ->
    nth_error (fst (nexts k types (iter_new h))) j = Some (nth_error (all_ids types h) j).
Proof.
  intros types h k j Hj. rewrite all_ids_nth.
  apply (nexts_state types h k 0 (Nat.le_0_l _)); auto.
Qed.
Print Assumptions C21_next_enumerates_ids.

(** A [for] loop (or [collect]) sees exactly the ids. *)
Theorem C21_collect_is_all_ids :
  forall types h, iter_collect types h = all_ids types h.
Proof.
  intros types h. apply nth_error_ext. intros i.
  rewrite all_ids_nth, iter_collect_ids, ids_from_nth. reflexivity.
Qed.
Print Assumptions C21_collect_is_all_ids.

(** After any number of [next] calls the size hint is the exact number of ids
    still to come (and the subtraction never underflows). *)
Theorem C21_size_hint_exact :
  forall types h k,
    let it := snd (nexts k types (iter_new h)) in
    pi_pos it <= length types /\
    iter_size_hint types it = (length types - k, Some (length types - k)).
Proof.
  intros types h k. cbn zeta. destruct (nexts_state types h k 0 (Nat.le_0_l _)) as [_ [Hp _]].
  unfold iter_new, iter_size_hint in *. rewrite Hp. cbn. split; [lia|]. f_equal; [|f_equal]; lia.
Qed.
Print Assumptions C21_size_hint_exact.

(** [state_id(i)]/[chan_id(i)] is the [i]-th item. *)
Theorem C21_id_accessors_agree :
  forall C h i,
    ci_state_id (mkCinst C h) i = nth_error (all_ids (ct_states C) h) i /\
    ci_chan_id (mkCinst C h) i = nth_error (all_ids (ct_chans C) h) i.
Proof.
  intros C h i. unfold ci_state_id, ci_chan_id, dyn_id_new; cbn. rewrite !all_ids_nth. auto.
Qed.
Print Assumptions C21_id_accessors_agree.

(** The [nth] clause of C21 is false: what [nth(n)] does instead.  From position
    [p] it returns [None] when fewer than [n+1] items remain; otherwise it moves by
    one item only and returns an id with index [p+1] but the type of field [p].
    (If [p + n] does not fit a 64-bit number, it panics: C58.) *)
Theorem C21_nth_exact_partial :
  forall types h p n, p <= length types -> (N.of_nat (p + n) < 2 ^ 64)%N ->
    iter_nth types (mkIter h p) n =
    if length types <=? p + n then (Ok None, mkIter h (length types))
    else (Ok (Some (mkPid (nth p types (TPrim TU8)) (S p) h)), mkIter h (S p)).
Proof.
  intros types h p n Hp H64. unfold iter_nth; cbn [pi_pos pi_contract].
  change (2 ^ 64)%N with 18446744073709551616%N in H64.
  destruct (N.leb_spec 18446744073709551616 (N.of_nat (p + n))); [lia|].
  destruct (Nat.leb_spec (length types) (p + n)); auto.
  destruct (nth_error types p) as [t|] eqn:E.
  - rewrite (nth_error_nth _ _ _ E). reflexivity.
  - apply nth_error_None in E. lia.
Qed.
Print Assumptions C21_nth_exact_partial.

(** In particular [nth] never returns the item it should, if there is one. *)
Theorem C21_nth_always_wrong_refuted :
  forall types h p n id, p <= length types ->
    nth_error (all_ids types h) (p + n) = Some id -> n <> 1 ->
    fst (iter_nth types (mkIter h p) n) <> Ok (Some id).
Proof.
  intros types h p n id Hp Hid Hn.
  destruct (N.ltb_spec (N.of_nat (p + n)) (2 ^ 64)) as [H64|H64].
  2:{ unfold iter_nth; cbn [pi_pos pi_contract]. change (2 ^ 64)%N with 18446744073709551616%N in H64.
      destruct (N.leb_spec 18446744073709551616 (N.of_nat (p + n))); [discriminate|lia]. }
  rewrite C21_nth_exact_partial by auto.
  rewrite all_ids_nth in Hid. destruct (nth_error types (p + n)) as [t|] eqn:E; [|discriminate].
  cbn in Hid. injection Hid as <-. pose proof (nth_error_lt _ _ _ E).
  destruct (Nat.leb_spec (length types) (p + n)); [lia|]. cbn. intros H'. injection H'. intros. lia.
Qed.
Print Assumptions C21_nth_always_wrong_refuted.

(** [nth(0)] (used by [skip] and [step_by]) on a two-field contract: index 1 with
    the type of field 0, which then binds the wrong field at the wrong type. *)
Theorem C21_nth_zero_refuted :
  exists types h,
    nth_error (all_ids types h) 0 = Some (mkPid (TPrim TU8) 0 h) /\
    fst (iter_nth types (iter_new h) 0) = Ok (Some (mkPid (TPrim TU8) 1 h)) /\
    nth_error (all_ids types h) 1 = Some (mkPid (TPrim TString) 1 h).
Proof. exists [TPrim TU8; TPrim TString], (mkIndex 0 0%N). vm_compute. auto. Qed.
Print Assumptions C21_nth_zero_refuted.

(** With a single field, [nth(0)] even returns an index out of range. *)
Theorem C21_nth_out_of_range_refuted :
  exists types h id, fst (iter_nth types (iter_new h) 0) = Ok (Some id) /\ length types <= pid_idx id.
Proof. exists [TPrim TU8], (mkIndex 0 0%N). eexists. split; [vm_compute; reflexivity|]. cbn. lia. Qed.
Print Assumptions C21_nth_out_of_range_refuted.
