(** The verifier's second counter: what an accepted file unfolds to is bounded. *)
From Verif Require Import Flat Wire WireRead WireSize.
Open Scope nat_scope.

(** What there is in tables: the bytes of all texts and the entries of all lists, each as
    often as it is read (a file may refer to the same bytes many times). *)
Definition if_there {A : Type} (f : A -> Z) (o : option A) : Z := match o with Some v => f v | None => 0%Z end.
Definition entries {A : Type} (f : A -> Z) (l : list A) : Z := sum (map (fun v => 1 + f v)%Z l).
Definition amount_cid (i : fb_cid) : Z := if_there text_length (fi_name i).
Definition amount_cstates (s : fb_cstates) : Z :=
  (if_there (entries text_length) (fs_names s) + if_there (entries (fun _ => 0)) (fs_types s))%Z.
Definition amount_contract (c : fb_contract) : Z :=
  (if_there amount_cid (fc_id c) + if_there amount_cstates (fc_states c))%Z.
Definition amount_value (v : fbval) : Z := match v with FFbString s => if_there text_length s | _ => 0%Z end.
Definition amount_object (o : fb_object) : Z := if_there (entries (fun _ => 0%Z)) (fo_states o).
Definition amount (f : fb_baseline) : Z :=
  (if_there (entries amount_contract) (fb_contracts f) + if_there (entries amount_value) (fb_states f)
   + if_there (entries amount_object) (fb_objects f))%Z.

Section Mass.
Variable b : list Z.
Hypothesis BY : Forall (fun z => 0 <= z < 256)%Z b.

Definition grows (m : Z) (s s' : vstate) : Prop := (snd s + m <= snd s')%Z /\ (snd s <= max_size -> snd s' <= max_size)%Z.
Definition sized {A : Type} (run : nat -> vstate -> option vstate) (d : list Z -> nat -> option A) (m : A -> Z) : Prop :=
  forall p s s' v, run p s = Some s' -> d b p = Some v -> grows (m v) s s'.

Lemma range_grows : forall n p s s', ver_range b n p s = Some s' -> grows (Z.of_nat n) s s'.
Proof.
  intros n p s s' H. unfold ver_range in H. destruct (p + n <=? length b); [|discriminate H].
  destruct (Z.leb_spec (snd s + Z.of_nat n) max_size) as [L|]; [|discriminate H].
  apply (f_equal (fun o => match o with Some x => snd x | None => 0%Z end)) in H. cbn in H. split; lia.
Qed.
Lemma in_grows : forall n p s s', ver_in b n p s = Some s' -> grows (Z.of_nat n) s s'.
Proof. intros n p s s' H. unfold ver_in in H. destruct (Nat.eqb _ 0); [|discriminate H]. eapply range_grows; eauto. Qed.
Lemma open_grows : forall t s vt len s', ver_open b t s = Some (vt, len, s') -> grows 0 s s'.
Proof.
  intros t s vt len s' H. unfold ver_open in H.
  destruct (ver_in b 4 t s) as [s1|] eqn:E1; [|discriminate H].
  destruct (vtable b t) as [x|] eqn:V; [|discriminate H].
  destruct (x <? length b); [|discriminate H].
  destruct (ver_in b 2 x s1) as [s2|] eqn:E2; [|discriminate H].
  destruct (get 2 b x) as [l|] eqn:G; [|discriminate H].
  destruct (Nat.eqb_spec ((x + Z.to_nat l) mod 2) 0) as [M|]; [|discriminate H].
  destruct (ver_range b (Z.to_nat l) x s2) as [s3|] eqn:E3; [|discriminate H].
  destruct (fst s3 + 1 <=? max_tables)%Z eqn:T; [|discriminate H].
  apply in_grows in E1. apply in_grows in E2. apply range_grows in E3.
  assert (s' = (fst s3 + 1, snd s3)%Z) by congruence. subst s'. unfold grows in *. cbn [snd]. lia.
Qed.
Lemma slot_grows : forall vt len t i s r s', ver_slot b vt len t i s = Some (r, s') -> grows 0 s s'.
Proof.
  intros vt len t i s r s' H. unfold ver_slot in H. destruct (4 + 2 * i <? len).
  - destruct (ver_in b 2 _ s) as [s1|] eqn:E; [|discriminate H]. destruct (get 2 b _); [|discriminate H].
    apply in_grows in E. assert (s1 = s') by congruence. subst. unfold grows in *. lia.
  - assert (s = s') by congruence. subst. unfold grows. lia.
Qed.

Lemma field_scalar_grows : forall vt len t n i s s', ver_field b (ver_in b n) vt len t i s = Some s' -> grows 0 s s'.
Proof.
  intros vt len t n i s s' H. unfold ver_field in H. destruct (ver_slot b vt len t i s) as [[r s1]|] eqn:S; [|discriminate H].
  apply slot_grows in S. destruct r as [p|].
  - apply in_grows in H. unfold grows in *. lia.
  - assert (s1 = s') by congruence. subst. exact S.
Qed.

Section Fields.
Variables (t vt len : nat) (l : Z).
Hypothesis V : vtable b t = Some vt.
Hypothesis G : get 2 b vt = Some l.
Hypothesis L : len = Z.to_nat l.
Hypothesis E : Nat.Even len.

Lemma field_pointer_grows : forall A run d (m : A -> Z) i s s' o, sized run d m ->
  ver_field b (ver_off b run) vt len t i s = Some s' -> pointer d b t i = Some o -> grows (if_there m o) s s'.
Proof.
  intros A run d m i s s' o P H PT. unfold ver_field in H.
  destruct (ver_slot b vt len t i s) as [[r s1]|] eqn:S; [|discriminate H].
  destruct (slot_ok b _ _ _ _ _ _ _ _ V G L E S) as [Q _]. apply slot_grows in S. unfold pointer in PT. rewrite Q in PT.
  destruct r as [p|].
  - unfold ver_off in H. destruct (ver_in b 4 p s1) as [s2|] eqn:I2; [|discriminate H]. apply in_grows in I2.
    destruct (follow b p) as [q|]; [|discriminate H]. destruct (d b q) as [v|] eqn:D; [|discriminate PT].
    assert (o = Some v) by congruence. subst o. specialize (P _ _ _ _ H D). cbn [if_there]. unfold grows in *. lia.
  - assert (o = None) by congruence. assert (s1 = s') by congruence. subst. exact S.
Qed.
End Fields.

Lemma len_grows : forall size p s n s', ver_len b size p s = Some (n, s') -> grows (Z.of_nat (n * size)) s s'.
Proof.
  intros size p s n s' H. unfold ver_len in H.
  destruct (ver_in b 4 p s) as [s1|] eqn:I1; [|discriminate H]. apply in_grows in I1.
  destruct (get 4 b p) as [l|]; [|discriminate H].
  destruct (Nat.eqb ((p + 4) mod size) 0); [|discriminate H].
  destruct (ver_range b (Z.to_nat l * size) (p + 4) s1) as [s2|] eqn:R; [|discriminate H]. apply range_grows in R.
  assert (n = Z.to_nat l) by congruence. assert (s' = s2) by congruence. subst. unfold grows in *. lia.
Qed.
Lemma text_grows : sized (ver_text b) text text_length.
Proof.
  intros p s s' v H D. unfold ver_text in H. destruct (ver_len b 1 p s) as [[n s1]|] eqn:N; [|discriminate H].
  pose proof (len_grows _ _ _ _ _ N) as GR. destruct (len_ok b _ _ _ _ _ N) as (l & G & -> & L & F).
  match type of H with (if ?c then _ else _) = _ => destruct c eqn:U; [|discriminate H] end.
  destruct (nth_error b _) as [[| |]|]; try discriminate H. assert (s' = s1) by congruence. subst s'.
  unfold text in D. rewrite G in D. replace (p + 4 + Z.to_nat l <=? length b) with true in D by (symmetry; apply Nat.leb_le; lia).
  assert (v = byte_string (firstn (Z.to_nat l) (skipn (p + 4) b))) by congruence. subst v.
  unfold text_length. rewrite bytes_string by (apply forall_firstn, forall_skipn, BY).
  rewrite firstn_length, skipn_length, Nat.min_l by lia. rewrite Nat.mul_1_r in GR. exact GR.
Qed.
Lemma all_length : forall A (l : list (option A)) w, all l = Some w -> length w = length l.
Proof.
  induction l as [|x l IH]; intros w E; cbn [all] in E; [injection E as <-; reflexivity|].
  destruct x as [v|]; [|discriminate E]. destruct (all l) as [r|]; [|discriminate E]. injection E as <-. cbn. rewrite (IH r); reflexivity.
Qed.
Lemma entries_none : forall A (l : list A), entries (fun _ => 0%Z) l = Z.of_nat (length l).
Proof. intros A l. unfold entries. rewrite (map_ext _ (fun _ => 1%Z)) by reflexivity. apply sum_one. Qed.
Lemma bytes_grows : sized (ver_bytes b) kinds_at (entries (fun _ => 0%Z)).
Proof.
  intros p s s' v H D. unfold ver_bytes in H. destruct (ver_len b 1 p s) as [[n s1]|] eqn:N; [|discriminate H].
  pose proof (len_grows _ _ _ _ _ N) as GR. destruct (len_ok b _ _ _ _ _ N) as (l & G & -> & L & F).
  assert (s' = s1) by (cbn in H; congruence). subst s'. unfold kinds_at in D. rewrite G in D.
  apply all_length in D. rewrite map_length, seq_length in D. rewrite entries_none, D. rewrite Nat.mul_1_r in GR. exact GR.
Qed.
Lemma each_grows : forall A run d (m : A -> Z), sized run d m -> forall k p s s' w,
  ver_each b run k p s = Some s' -> all (map (fun k => q <- follow b (p + 4 * k); d b q) (seq 0 k)) = Some w ->
  grows (entries m w) s s'.
Proof.
  intros A run d m P. induction k as [|k IH]; intros p s s' w H D; cbn [ver_each] in H.
  - cbn in D. assert (w = []) by congruence. assert (s = s') by congruence. subst. unfold grows, entries. cbn. lia.
  - unfold ver_off in H. destruct (ver_in b 4 p s) as [s1|] eqn:I1; [|discriminate H]. apply in_grows in I1.
    destruct (follow b p) as [q|] eqn:Q; [|discriminate H].
    destruct (run q s1) as [s2|] eqn:R; [|discriminate H].
    cbn [seq map all] in D. rewrite Nat.mul_0_r, Nat.add_0_r, Q in D.
    destruct (d b q) as [v|] eqn:DV; [|discriminate D].
    rewrite <- seq_shift, map_map in D.
    rewrite (map_ext (fun x => q0 <- follow b (p + 4 * S x); d b q0) (fun k => q0 <- follow b (p + 4 + 4 * k); d b q0)) in D
      by (intros x; replace (p + 4 * S x) with (p + 4 + 4 * x) by lia; reflexivity).
    destruct (all (map (fun k => q0 <- follow b (p + 4 + 4 * k); d b q0) (seq 0 k))) as [r|] eqn:AR; [|discriminate D].
    assert (w = v :: r) by congruence. subst w.
    specialize (P _ _ _ _ R DV). specialize (IH _ _ _ _ H AR).
    unfold entries in *. cbn [map sum fold_right]. fold (sum (map (fun v => 1 + m v)%Z r)). unfold grows in *. lia.
Qed.
Lemma vector_grows : forall A run d (m : A -> Z), sized run d m -> sized (ver_vector b run) (vector d) (entries m).
Proof.
  intros A run d m P p s s' w H D. unfold ver_vector in H. destruct (ver_len b 4 p s) as [[k s1]|] eqn:N; [|discriminate H].
  pose proof (len_grows _ _ _ _ _ N) as GR. destruct (len_ok b _ _ _ _ _ N) as (l & G & -> & L & F).
  unfold vector in D. rewrite G in D. pose proof (each_grows _ _ _ _ P _ _ _ _ _ H D) as K. unfold grows in *. lia.
Qed.

Ltac gopened H :=
  match type of H with (_ <- ver_open b ?t ?s; _) = _ =>
    let O := fresh "O" in
    destruct (ver_open b t s) as [[[vt len] s1]|] eqn:O; [|discriminate H];
    pose proof (open_grows _ _ _ _ _ O);
    destruct (open_ok b _ _ _ _ _ O) as (lz & V & G & LE & EV & _) end.
Ltac gsc H n i :=
  match type of H with (_ <- ver_field b (ver_in b n) ?vt ?len ?t i ?s; _) = _ =>
    let s' := fresh "s" in let E := fresh "E" in
    destruct (ver_field b (ver_in b n) vt len t i s) as [s'|] eqn:E; [|discriminate H];
    apply field_scalar_grows in E end.
Ltac gpt H D P :=
  match goal with V : vtable b ?t = Some ?vt, G : get 2 b ?vt = Some ?l, LE : ?len = Z.to_nat ?l, EV : Nat.Even ?len |- _ =>
  match type of H with (_ <- ver_field b (ver_off b ?run) vt len t ?i ?s; _) = _ =>
    let s' := fresh "s" in let E := fresh "E" in
    destruct (ver_field b (ver_off b run) vt len t i s) as [s'|] eqn:E; [|discriminate H];
    match type of D with (_ <- pointer ?d b t i; _) = _ =>
      let o := fresh "o" in let PT := fresh "PT" in
      destruct (pointer d b t i) as [o|] eqn:PT; [|discriminate D];
      pose proof (field_pointer_grows _ _ _ _ V G LE EV _ _ _ _ _ _ _ _ P E PT) end end end.

Lemma cid_grows : sized (ver_cid b) read_cid amount_cid.
Proof.
  intros p s s' v H D. unfold ver_cid in H. unfold read_cid in D. gopened H. gpt H D text_grows. gsc H 2 1. gsc H 2 2.
  apply field_scalar_grows in H. do 3 (destruct (scalar 2 b p _); [|discriminate D]).
  assert (fi_name v = o) by (injection D as <-; reflexivity). unfold amount_cid. rewrite H2. unfold grows in *. lia.
Qed.
Ltac gfinal H D P :=
  match goal with V : vtable b ?t = Some ?vt, G : get 2 b ?vt = Some ?l, LE : ?len = Z.to_nat ?l, EV : Nat.Even ?len |- _ =>
    match type of D with (_ <- pointer ?d b t ?i; _) = _ =>
      let o := fresh "o" in let PT := fresh "PT" in
      destruct (pointer d b t i) as [o|] eqn:PT; [|discriminate D];
      pose proof (field_pointer_grows _ _ _ _ V G LE EV _ _ _ _ _ _ _ _ P H PT) end end.
Lemma cstates_grows : sized (ver_cstates b) read_cstates amount_cstates.
Proof.
  intros p s s' v H D. unfold ver_cstates in H. unfold read_cstates in D. gopened H.
  gpt H D (vector_grows _ _ _ _ text_grows). gfinal H D bytes_grows. injection D as <-.
  unfold amount_cstates. cbn [fs_names fs_types]. unfold grows in *. lia.
Qed.
Lemma contract_grows : sized (ver_contract b) read_contract amount_contract.
Proof.
  intros p s s' v H D. unfold ver_contract in H. unfold read_contract in D. gopened H.
  gpt H D cid_grows. gfinal H D cstates_grows. injection D as <-.
  unfold amount_contract. cbn [fc_id fc_states]. unfold grows in *. lia.
Qed.
Lemma num_grows : forall A n (d : list Z -> nat -> option A), sized (ver_num b n) d (fun _ => 0%Z).
Proof. intros A n d p s s' v H _. unfold ver_num in H. gopened H. apply field_scalar_grows in H. unfold grows in *. lia. Qed.
Lemma fb_text_grows : sized (ver_fb_text b) fb_text (if_there text_length).
Proof.
  intros p s s' v H D. unfold ver_fb_text in H. gopened H. unfold fb_text in D.
  pose proof (field_pointer_grows _ _ _ _ V G LE EV _ _ _ _ _ _ _ _ text_grows H D). unfold grows in *. lia.
Qed.
Lemma object_grows : sized (ver_object b) read_object amount_object.
Proof.
  intros p s s' v H D. unfold ver_object in H. unfold read_object in D. gopened H.
  gpt H D (num_grows _ 2 (read_idx 2)). gfinal H D (vector_grows _ _ _ _ (num_grows _ 4 (read_idx 4))). injection D as <-.
  unfold amount_object. cbn [fo_states]. unfold grows in *. destruct o; cbn [if_there] in *; lia.
Qed.
Lemma off_grows : forall A run d (m : A -> Z) t p s s' v, sized run d m -> slot b t 1 = Some (Some p) ->
  ver_off b run p s = Some s' -> union_value d b t = Some v -> grows (m v) s s'.
Proof.
  intros A run d m t p s s' v P SL H D. unfold ver_off in H.
  destruct (ver_in b 4 p s) as [s1|] eqn:I1; [|discriminate H]. apply in_grows in I1.
  unfold union_value, pointer in D. rewrite SL in D. destruct (follow b p) as [q|]; [|discriminate H].
  destruct (d b q) as [w|] eqn:DW; [|discriminate D]. assert (w = v) by congruence. subst w.
  specialize (P _ _ _ _ H DW). unfold grows in *. lia.
Qed.
Lemma off_grows_none : forall n p s s', ver_off b (ver_num b n) p s = Some s' -> grows 0 s s'.
Proof.
  intros n p s s' H. unfold ver_off in H.
  destruct (ver_in b 4 p s) as [s1|] eqn:I1; [|discriminate H]. apply in_grows in I1.
  destruct (follow b p) as [q|]; [|discriminate H].
  pose proof (num_grows nat n (fun _ _ => Some 0) _ _ _ 0 H eq_refl). unfold grows in *. lia.
Qed.
Lemma state_grows : sized (ver_state b) read_state amount_value.
Proof.
  intros p s s' w H D. unfold ver_state in H. gopened H.
  destruct (ver_slot b vt len p 1 s1) as [[val s2]|] eqn:S1; [|discriminate H].
  destruct (ver_slot b vt len p 0 s2) as [[key s3]|] eqn:S0; [|discriminate H].
  destruct (slot_ok b _ _ _ _ _ _ _ _ V G LE EV S1) as [Q1 _].
  destruct (slot_ok b _ _ _ _ _ _ _ _ V G LE EV S0) as [Q0 _].
  apply slot_grows in S1. apply slot_grows in S0.
  unfold read_state, scalar in D. rewrite Q0 in D. destruct key as [k|]; destruct val as [v|]; try discriminate H.
  - destruct (ver_in b 1 k s3) as [s4|] eqn:I1; [|discriminate H]. apply in_grows in I1.
    destruct (get 1 b k) as [tag|] eqn:T; [|discriminate H]. unfold ver_union in H.
    assert (K : forall m, grows m s4 s' -> amount_value w = m -> grows (amount_value w) s s')
      by (intros m K1 ->; unfold grows in *; lia).
    assert (Z4 : s4 = s' -> grows 0 s4 s') by (intros ->; unfold grows; lia).
    destruct tag as [|tag|tag];
      do 4 (try (destruct tag as [tag|tag|]));
      first
        [ (apply (K 0%Z); [apply Z4; congruence|assert (EW := f_equal (fun o => match o with Some y => amount_value y | None => 0%Z end) D); cbn in EW; symmetry; exact EW])
        | (apply (K 0%Z); [eapply off_grows_none; exact H|];
           match type of D with match ?u with _ => _ end = _ => destruct u; [|discriminate D] end; injection D as <-; reflexivity)
        | (destruct (union_value fb_text b p) as [o|] eqn:U; [|discriminate D]; injection D as <-;
           eapply K; [exact (off_grows _ _ _ _ _ _ _ _ _ fb_text_grows Q1 H U)|reflexivity]) ].
  - injection D as <-. assert (s' = s3) by congruence. subst. unfold grows in *. cbn [amount_value]. lia.
Qed.
Lemma baseline_grows : sized (ver_baseline b) read_baseline amount.
Proof.
  intros p s s' v H D. unfold ver_baseline in H. unfold read_baseline in D. gopened H.
  gpt H D (vector_grows _ _ _ _ contract_grows). gpt H D (vector_grows _ _ _ _ state_grows).
  gfinal H D (vector_grows _ _ _ _ object_grows). injection D as <-.
  unfold amount. cbn [fb_contracts fb_states fb_objects]. unfold grows in *. lia.
Qed.
Lemma verify_amount : forall s f, verify b = Some s -> read_root b = Some f -> (amount f <= snd s <= max_size)%Z.
Proof.
  intros s f H D. unfold verify, ver_off in H.
  destruct (ver_in b 4 0 (0%Z, 0%Z)) as [s1|] eqn:I1; [|discriminate H]. apply in_grows in I1.
  unfold read_root in D. destruct (follow b 0) as [t|]; [|discriminate H].
  pose proof (baseline_grows _ _ _ _ H D) as K. unfold grows in *. cbn [snd] in *. unfold max_size in *. lia.
Qed.
End Mass.
