(** A buffer that has been checked can be read: no access leaves it.  And the check counts
    the tables. *)
From Verif Require Import Wire.
From Verif Require Text.
Open Scope nat_scope.

(** ** How many tables a baseline has *)
Definition one {A : Type} (o : option A) : Z := match o with Some _ => 1 | None => 0 end%Z.
Definition some_list {A : Type} (o : option (list A)) : list A := match o with Some l => l | None => [] end.
Definition sum (l : list Z) : Z := fold_right Z.add 0%Z l.
Definition tables_contract (c : fb_contract) : Z := (1 + one (fc_id c) + one (fc_states c))%Z.
Definition tables_state (v : fbval) : Z := match v with FNone | FOther _ => 1 | _ => 2 end%Z.
Definition tables_object (o : fb_object) : Z :=
  (1 + one (fo_contract o) + Z.of_nat (length (some_list (fo_states o))))%Z.
Definition tables (f : fb_baseline) : Z :=
  (1 + sum (map tables_contract (some_list (fb_contracts f))) + sum (map tables_state (some_list (fb_states f)))
     + sum (map tables_object (some_list (fb_objects f))))%Z.

(** ** What the fields of a baseline hold: numbers that fit their width, text that is UTF-8 *)
Definition utf8 (s : string) : Prop := Text.valid_utf8 (string_bytes s) = true.
Definition if_any {A : Type} (P : A -> Prop) (o : option A) : Prop := match o with Some v => P v | None => True end.
Definition held_value (v : fbval) : Prop :=
  match v with
  | FU8 x => 0 <= x < 2 ^ 8 | FU16 x => 0 <= x < 2 ^ 16 | FU32 x => 0 <= x < 2 ^ 32 | FU64 x => 0 <= x < 2 ^ 64
  | FI8 x => - 2 ^ 7 <= x < 2 ^ 7 | FI16 x => - 2 ^ 15 <= x < 2 ^ 15
  | FI32 x => - 2 ^ 31 <= x < 2 ^ 31 | FI64 x => - 2 ^ 63 <= x < 2 ^ 63
  | FF32 x => 0 <= x < 2 ^ 32 | FF64 x => 0 <= x < 2 ^ 64
  | FFbString s => if_any utf8 s
  | FObjectHandle i => (i < 2 ^ 32)%N | FContractDataHandle i => (i < 2 ^ 16)%N
  | FOther n => 15 <= n < 2 ^ 8
  | FBool _ | FNone => True
  end%Z.
Definition held_cid (c : fb_cid) : Prop :=
  if_any utf8 (fi_name c) /\ let '(v1, v2, v3) := fi_ver c in (v1 < 2 ^ 16 /\ v2 < 2 ^ 16 /\ v3 < 2 ^ 16)%N.
Definition held_kind (k : fbkind) : Prop := match k with KOther n => (- 2 ^ 7 <= n < 0 \/ 14 <= n < 2 ^ 7)%Z | _ => True end.
Definition held_cstates (c : fb_cstates) : Prop :=
  if_any (Forall utf8) (fs_names c) /\ if_any (Forall held_kind) (fs_types c).
Definition held_contract (c : fb_contract) : Prop := if_any held_cid (fc_id c) /\ if_any held_cstates (fc_states c).
Definition held_object (o : fb_object) : Prop :=
  if_any (fun i => (i < 2 ^ 16)%N) (fo_contract o) /\ if_any (Forall (fun i => (i < 2 ^ 32)%N)) (fo_states o).
Definition held (f : fb_baseline) : Prop :=
  if_any (Forall held_contract) (fb_contracts f) /\ if_any (Forall held_value) (fb_states f) /\
  if_any (Forall held_object) (fb_objects f).

Section Read.
Variable b : list Z.
Hypothesis BY : Forall (fun z => 0 <= z < 256)%Z b.

(** What a successful check of [A]s promises: the reader succeeds with a [good] value, and
    [n] tables were counted, not more than the limit. *)
Definition promise {A : Type} (run : nat -> vstate -> option vstate) (d : list Z -> nat -> option A) (n : A -> Z)
    (good : A -> Prop) : Prop :=
  forall p s s', run p s = Some s' -> exists v, d b p = Some v /\ (fst s' = fst s + n v)%Z /\ good v /\
    (fst s <= max_tables -> fst s' <= max_tables)%Z.

Lemma le_range : forall l, Forall (fun z => 0 <= z < 256)%Z l -> (0 <= le l < 2 ^ (8 * Z.of_nat (length l)))%Z.
Proof.
  induction l as [|x l IH]; intros F; cbn [le length]; [cbn; lia|]. apply Forall_cons_iff in F. destruct F as [X F].
  specialize (IH F). rewrite Nat2Z.inj_succ. replace (8 * Z.succ (Z.of_nat (length l)))%Z with (8 + 8 * Z.of_nat (length l))%Z by lia.
  rewrite Z.pow_add_r by lia. change (2 ^ 8)%Z with 256%Z. lia.
Qed.
Lemma forall_skipn : forall A (P : A -> Prop) n l, Forall P l -> Forall P (skipn n l).
Proof. induction n; intros l F; [exact F|]. destruct F; cbn; [constructor|auto]. Qed.
Lemma forall_firstn : forall A (P : A -> Prop) n l, Forall P l -> Forall P (firstn n l).
Proof. induction n; intros l F; [constructor|]. destruct F; cbn; constructor; auto. Qed.
Lemma get_range : forall n p v, get n b p = Some v -> (0 <= v < 2 ^ (8 * Z.of_nat n))%Z.
Proof.
  intros n p v H. unfold get in H. destruct (Nat.leb_spec (p + n) (length b)) as [L|]; [|discriminate H].
  assert (v = le (firstn n (skipn p b))) by congruence. subst v.
  pose proof (le_range (firstn n (skipn p b))) as R. rewrite firstn_length, skipn_length in R.
  rewrite Nat.min_l in R by lia. apply R. apply forall_firstn, forall_skipn, BY.
Qed.
Lemma signed_range : forall n v, n <> 0 -> (0 <= v < 2 ^ (8 * Z.of_nat n))%Z ->
  (- 2 ^ (8 * Z.of_nat n - 1) <= signed n v < 2 ^ (8 * Z.of_nat n - 1))%Z.
Proof.
  intros n v N H. unfold signed.
  assert (PP : (2 ^ (8 * Z.of_nat n) = 2 * 2 ^ (8 * Z.of_nat n - 1))%Z)
    by (rewrite <- (Z.pow_succ_r 2 (8 * Z.of_nat n - 1)); [f_equal; lia|lia]).
  rewrite PP in *. destruct (Z.ltb_spec v (2 ^ (8 * Z.of_nat n - 1))); lia.
Qed.

Lemma range_ok : forall n p s s', ver_range b n p s = Some s' -> p + n <= length b /\ fst s' = fst s.
Proof.
  intros n p s s' H. unfold ver_range in H. destruct (p + n <=? length b) eqn:E; [|discriminate H].
  apply Nat.leb_le in E. destruct (snd s + Z.of_nat n <=? max_size)%Z; [|discriminate H].
  split; [exact E|]. apply (f_equal (fun o => match o with Some x => fst x | None => 0%Z end)) in H. cbn in H. congruence.
Qed.
Lemma in_ok : forall n p s s', ver_in b n p s = Some s' ->
  p mod n = 0 /\ p + n <= length b /\ fst s' = fst s /\ exists v, get n b p = Some v.
Proof.
  intros n p s s' H. unfold ver_in in H. destruct (Nat.eqb_spec (p mod n) 0) as [M|]; [|discriminate H].
  apply range_ok in H. destruct H as [L F]. split; [exact M|]. split; [exact L|]. split; [exact F|].
  unfold get. replace (p + n <=? length b) with true by (symmetry; apply Nat.leb_le; exact L). eauto.
Qed.

Lemma open_ok : forall t s vt len s', ver_open b t s = Some (vt, len, s') ->
  exists l, vtable b t = Some vt /\ get 2 b vt = Some l /\ len = Z.to_nat l /\ Nat.Even len /\
            vt + len <= length b /\ (fst s' = fst s + 1)%Z /\ (fst s' <= max_tables)%Z.
Proof.
  intros t s vt len s' H. unfold ver_open in H.
  destruct (ver_in b 4 t s) as [s1|] eqn:E1; [|discriminate H].
  destruct (vtable b t) as [x|] eqn:V; [|discriminate H].
  destruct (x <? length b); [|discriminate H].
  destruct (ver_in b 2 x s1) as [s2|] eqn:E2; [|discriminate H].
  destruct (get 2 b x) as [l|] eqn:G; [|discriminate H].
  destruct (Nat.eqb_spec ((x + Z.to_nat l) mod 2) 0) as [M|]; [|discriminate H].
  destruct (ver_range b (Z.to_nat l) x s2) as [s3|] eqn:E3; [|discriminate H].
  destruct (fst s3 + 1 <=? max_tables)%Z eqn:T; [|discriminate H]. apply Z.leb_le in T.
  apply in_ok in E1. apply in_ok in E2. apply range_ok in E3.
  destruct E1 as (_ & _ & F1 & _). destruct E2 as (M2 & _ & F2 & _). destruct E3 as [L F3].
  assert (x = vt) by congruence. subst x. assert (len = Z.to_nat l) by congruence. subst len.
  assert (s' = (fst s3 + 1, snd s3)%Z) by congruence. subst s'. cbn [fst].
  exists l. repeat split; try reflexivity; try assumption; try lia.
  apply Nat.mod_divides in M; [|lia]. apply Nat.mod_divides in M2; [|lia].
  destruct M as [c M], M2 as [d M2]. exists (c - d). lia.
Qed.

Lemma slot_ok : forall t vt len l s i r s', vtable b t = Some vt -> get 2 b vt = Some l -> len = Z.to_nat l ->
  Nat.Even len -> ver_slot b vt len t i s = Some (r, s') -> slot b t i = Some r /\ fst s' = fst s.
Proof.
  intros t vt len l s i r s' V G -> [k K] H. unfold slot. rewrite V, G. unfold ver_slot in H.
  destruct (Nat.ltb_spec (4 + 2 * i) (Z.to_nat l)) as [L|L].
  - destruct (ver_in b 2 (vt + (4 + 2 * i)) s) as [s1|] eqn:E; [|discriminate H].
    apply in_ok in E. destruct E as (_ & _ & F & _).
    destruct (get 2 b (vt + (4 + 2 * i))) as [o|]; [|discriminate H].
    replace (Z.of_nat (6 + 2 * i) <=? l)%Z with true by (symmetry; apply Z.leb_le; lia).
    split; congruence.
  - replace (Z.of_nat (6 + 2 * i) <=? l)%Z with false by (symmetry; apply Z.leb_gt; lia).
    split; congruence.
Qed.

Section Fields.
Variables (t vt len : nat) (l : Z).
Hypothesis V : vtable b t = Some vt.
Hypothesis G : get 2 b vt = Some l.
Hypothesis L : len = Z.to_nat l.
Hypothesis E : Nat.Even len.

Lemma field_scalar : forall n i s s', ver_field b (ver_in b n) vt len t i s = Some s' ->
  (exists v, scalar n b t i = Some v /\ (0 <= v < 2 ^ (8 * Z.of_nat n))%Z) /\ fst s' = fst s.
Proof.
  intros n i s s' H. unfold ver_field in H. destruct (ver_slot b vt len t i s) as [[r s1]|] eqn:S; [|discriminate H].
  destruct (slot_ok _ _ _ _ _ _ _ _ V G L E S) as [Q F]. unfold scalar. rewrite Q.
  destruct r as [p|].
  - apply in_ok in H. destruct H as (_ & _ & F' & v & X). split; [|congruence]. exists v. split; [exact X|exact (get_range _ _ _ X)].
  - split; [|congruence]. exists 0%Z. split; [reflexivity|]. split; [lia|]. apply Z.pow_pos_nonneg; lia.
Qed.
Lemma field_pointer : forall A run d (n : A -> Z) g i s s', promise run d n g ->
  ver_field b (ver_off b run) vt len t i s = Some s' ->
  exists o, pointer d b t i = Some o /\ (fst s' = fst s + match o with Some v => n v | None => 0 end)%Z /\
            if_any g o /\ (fst s <= max_tables -> fst s' <= max_tables)%Z.
Proof.
  intros A run d n g i s s' P H. unfold ver_field in H.
  destruct (ver_slot b vt len t i s) as [[r s1]|] eqn:S; [|discriminate H].
  destruct (slot_ok _ _ _ _ _ _ _ _ V G L E S) as [Q F]. unfold pointer. rewrite Q.
  destruct r as [p|].
  - unfold ver_off in H. destruct (ver_in b 4 p s1) as [s2|] eqn:I; [|discriminate H].
    apply in_ok in I. destruct I as (_ & _ & F2 & _).
    destruct (follow b p) as [q|]; [|discriminate H].
    destruct (P q s2 s' H) as (v & D & F3 & GV & MX). rewrite D. exists (Some v). split; [reflexivity|]. split; [lia|].
    split; [exact GV|]. intros M. apply MX. lia.
  - exists None. split; [reflexivity|]. assert (s' = s1) by congruence. subst. split; [lia|]. split; [exact I|]. lia.
Qed.
End Fields.

Lemma len_ok : forall size p s n s', ver_len b size p s = Some (n, s') ->
  exists l, get 4 b p = Some l /\ n = Z.to_nat l /\ p + 4 + n * size <= length b /\ fst s' = fst s.
Proof.
  intros size p s n s' H. unfold ver_len in H.
  destruct (ver_in b 4 p s) as [s1|] eqn:I; [|discriminate H]. apply in_ok in I. destruct I as (_ & _ & F & _).
  destruct (get 4 b p) as [l|]; [|discriminate H].
  destruct (Nat.eqb ((p + 4) mod size) 0); [|discriminate H].
  destruct (ver_range b (Z.to_nat l * size) (p + 4) s1) as [s2|] eqn:R; [|discriminate H].
  apply range_ok in R. destruct R as [R F2].
  exists l. assert (n = Z.to_nat l) by congruence. assert (s' = s2) by congruence. subst.
  repeat split; try assumption. congruence.
Qed.

Lemma bytes_string : forall l, Forall (fun z => 0 <= z < 256)%Z l -> string_bytes (byte_string l) = l.
Proof.
  intros l F. unfold string_bytes, byte_string. rewrite Coq.Strings.String.list_ascii_of_string_of_list_ascii, map_map.
  rewrite (map_ext_in _ (fun z => z)); [apply map_id|]. intros z Z0. rewrite Forall_forall in F. specialize (F z Z0).
  rewrite Coq.Strings.Ascii.N_ascii_embedding by lia. lia.
Qed.
Lemma text_ok : promise (ver_text b) text (fun _ => 0%Z) utf8.
Proof.
  intros p s s' H. unfold ver_text in H. destruct (ver_len b 1 p s) as [[n s1]|] eqn:N; [|discriminate H].
  apply len_ok in N. destruct N as (l & G & -> & L & F).
  match type of H with (if ?c then _ else _) = _ => destruct c eqn:U; [|discriminate H] end.
  destruct (nth_error b _) as [[| |]|]; try discriminate H. assert (s' = s1) by congruence. subst s'.
  unfold text. rewrite G. replace (p + 4 + Z.to_nat l <=? length b) with true by (symmetry; apply Nat.leb_le; lia).
  eexists. split; [reflexivity|]. split; [lia|]. split; [|lia]. unfold utf8. rewrite bytes_string; [exact U|].
  apply forall_firstn, forall_skipn, BY.
Qed.
Lemma all_good : forall A (g : A -> Prop) l w, all l = Some w -> (forall v, In (Some v) l -> g v) -> Forall g w.
Proof.
  induction l as [|x l IH]; intros w E H; cbn [all] in E.
  - assert (w = []) by congruence. subst. constructor.
  - destruct x as [v|]; [|discriminate E]. destruct (all l) as [r|]; [|discriminate E]. assert (w = v :: r) by congruence. subst.
    constructor; [apply H; left; reflexivity|]. apply IH; [reflexivity|]. intros u U. apply H. right. exact U.
Qed.

Lemma all_map : forall A B (f : A -> option B) l, (forall x, In x l -> exists v, f x = Some v) -> exists w, all (map f l) = Some w.
Proof.
  induction l as [|x l IH]; intros H; cbn [map all]; [eauto|].
  destruct (H x (or_introl eq_refl)) as [v ->]. destruct IH as [w ->]; [intros y Y; apply H; right; exact Y|]. eauto.
Qed.

Lemma kind_held : forall v, (0 <= v < 2 ^ 8)%Z -> held_kind (kind_of_byte v).
Proof.
  intros v R. unfold kind_of_byte. destruct ((0 <=? signed 1 v) && (signed 1 v <? 14))%Z%bool eqn:C.
  - assert (IN : In (nth (Z.to_nat v) kinds (KOther 0)) kinds).
    { apply andb_prop in C. destruct C as [C1 C2]. apply Z.leb_le in C1. apply Z.ltb_lt in C2. apply nth_In. change (length kinds) with 14.
      unfold signed in C1, C2. change (2 ^ (8 * Z.of_nat 1 - 1))%Z with 128%Z in *. change (2 ^ (8 * Z.of_nat 1))%Z with 256%Z in *.
      change (2 ^ 8)%Z with 256%Z in R. destruct (Z.ltb_spec v 128); lia. }
    clear C. revert IN. generalize (nth (Z.to_nat v) kinds (KOther 0)). intros k IN. cbn in IN.
    repeat (destruct IN as [<-|IN]; [exact I|]). contradiction.
  - cbn [held_kind]. pose proof (signed_range 1 v ltac:(lia) R) as SR. cbn in SR. change (2 ^ 7)%Z with 128%Z in *.
    apply andb_false_iff in C. destruct C as [C|C]; [apply Z.leb_gt in C|apply Z.ltb_ge in C]; cbn in *; lia.
Qed.
Lemma bytes_ok : promise (ver_bytes b) kinds_at (fun _ => 0%Z) (Forall held_kind).
Proof.
  intros p s s' H. unfold ver_bytes in H. destruct (ver_len b 1 p s) as [[n s1]|] eqn:N; [|discriminate H].
  apply len_ok in N. destruct N as (l & G & -> & L & F). assert (s' = s1) by (cbn in H; congruence). subst s'.
  unfold kinds_at. rewrite G.
  destruct (all_map _ _ (fun k => v <- get 1 b (p + 4 + k); Some (kind_of_byte v)) (seq 0 (Z.to_nat l))) as [w W].
  - intros k K. apply in_seq in K. unfold get.
    replace (p + 4 + k + 1 <=? length b) with true by (symmetry; apply Nat.leb_le; lia). eauto.
  - rewrite W. exists w. split; [reflexivity|]. split; [lia|]. split; [|lia].
    apply (all_good _ _ _ _ W). intros v IN. apply in_map_iff in IN. destruct IN as (k & E & _).
    destruct (get 1 b (p + 4 + k)) as [x|] eqn:X; [|discriminate E]. assert (v = kind_of_byte x) by congruence. subst v.
    apply kind_held. exact (get_range _ _ _ X).
Qed.

Lemma each_ok : forall A run d (n : A -> Z) g, promise run d n g -> forall k p s s',
  ver_each b run k p s = Some s' ->
  exists w, all (map (fun k => q <- follow b (p + 4 * k); d b q) (seq 0 k)) = Some w /\
            length w = k /\ (fst s' = fst s + sum (map n w))%Z /\ Forall g w /\ (fst s <= max_tables -> fst s' <= max_tables)%Z.
Proof.
  intros A run d n g P. induction k as [|k IH]; intros p s s' H; cbn [ver_each] in H.
  - exists []. cbn. assert (s' = s) by congruence. subst. do 2 (split; [reflexivity|]). split; [lia|]. split; [constructor|]. lia.
  - unfold ver_off in H. destruct (ver_in b 4 p s) as [s1|] eqn:I; [|discriminate H].
    apply in_ok in I. destruct I as (_ & _ & F & _).
    destruct (follow b p) as [q|] eqn:Q; [|discriminate H].
    destruct (run q s1) as [s2|] eqn:R; [|discriminate H].
    destruct (P _ _ _ R) as (v & D & F2 & GV & MV). destruct (IH _ _ _ H) as (w & W & LW & F3 & GW & MW).
    exists (v :: w). cbn [seq map all]. rewrite Nat.mul_0_r, Nat.add_0_r, Q, D.
    rewrite <- seq_shift, map_map.
    rewrite (map_ext (fun x => q0 <- follow b (p + 4 * S x); d b q0) (fun k => q0 <- follow b (p + 4 + 4 * k); d b q0)).
    + rewrite W. split; [reflexivity|]. split; [cbn; congruence|]. cbn [map sum fold_right]. fold (sum (map n w)). split; [lia|].
      split; [constructor; assumption|]. rewrite F in MV. lia.
    + intros x. replace (p + 4 * S x) with (p + 4 + 4 * x) by lia. reflexivity.
Qed.
Lemma vector_ok : forall A run d (n : A -> Z) g, promise run d n g ->
  promise (ver_vector b run) (vector d) (fun w => sum (map n w)) (Forall g).
Proof.
  intros A run d n g P p s s' H. unfold ver_vector in H. destruct (ver_len b 4 p s) as [[k s1]|] eqn:N; [|discriminate H].
  apply len_ok in N. destruct N as (l & G & -> & L & F).
  destruct (each_ok _ _ _ _ _ P _ _ _ _ H) as (w & W & _ & F2 & GW & MW). unfold vector. rewrite G, W.
  exists w. split; [reflexivity|]. split; [lia|]. split; [exact GW|]. rewrite F in MW. exact MW.
Qed.

Lemma sum_zero : forall A (l : list A), sum (map (fun _ => 0%Z) l) = 0%Z.
Proof. induction l; cbn; [reflexivity|exact IHl]. Qed.
Lemma sum_one : forall A (l : list A), sum (map (fun _ => 1%Z) l) = Z.of_nat (length l).
Proof. induction l; [reflexivity|]. cbn [map sum fold_right length]. fold (sum (map (fun _ : A => 1%Z) l)). lia. Qed.

Ltac opened H :=
  match type of H with (_ <- ver_open b ?t ?s; _) = _ =>
    let O := fresh "O" in
    destruct (ver_open b t s) as [[[vt len] s1]|] eqn:O; [|discriminate H];
    apply open_ok in O; destruct O as (lz & V & G & LE & EV & BD & FO & MO) end.
Ltac sc H n i :=
  match goal with V : vtable b ?t = Some ?vt, G : get 2 b ?vt = Some ?l, LE : ?len = Z.to_nat ?l, EV : Nat.Even ?len |- _ =>
  match type of H with (_ <- ver_field b (ver_in b n) vt len t i ?s; _) = _ =>
    let s' := fresh "s" in let E := fresh "E" in
    destruct (ver_field b (ver_in b n) vt len t i s) as [s'|] eqn:E; [|discriminate H];
    let F := fresh "F" in let X := fresh "X" in let R := fresh "R" in let v := fresh "v" in
    destruct (field_scalar _ _ _ _ V G LE EV _ _ _ _ E) as [(v & X & R) F] end end.
Ltac pt H P :=
  match goal with V : vtable b ?t = Some ?vt, G : get 2 b ?vt = Some ?l, LE : ?len = Z.to_nat ?l, EV : Nat.Even ?len |- _ =>
  match type of H with (_ <- ver_field b (ver_off b ?run) vt len t ?i ?s; _) = _ =>
    let s' := fresh "s" in let E := fresh "E" in
    destruct (ver_field b (ver_off b run) vt len t i s) as [s'|] eqn:E; [|discriminate H];
    let F := fresh "F" in let X := fresh "X" in let v := fresh "o" in let GO := fresh "GO" in let MX := fresh "MX" in
    destruct (field_pointer _ _ _ _ V G LE EV _ _ _ _ _ _ _ _ P E) as (v & X & F & GO & MX) end end.

Lemma cid_ok : promise (ver_cid b) read_cid (fun _ => 1%Z) held_cid.
Proof.
  intros p s s' H. unfold ver_cid in H. opened H. pt H text_ok. sc H 2 1. sc H 2 2.
  destruct (field_scalar _ _ _ _ V G LE EV _ _ _ _ H) as [(v3 & X3 & R3) F3].
  unfold read_cid. rewrite X, X0, X1, X3. eexists. split; [reflexivity|]. split; [destruct o; lia|].
  split; [|intros _; destruct o; lia]. split; [exact GO|]. cbn [fi_ver].
  change (2 ^ (8 * Z.of_nat 2))%Z with 65536%Z in *. change (2 ^ 16)%N with 65536%N. lia.
Qed.
Lemma cstates_ok : promise (ver_cstates b) read_cstates (fun _ => 1%Z) held_cstates.
Proof.
  intros p s s' H. unfold ver_cstates in H. opened H.
  pt H (vector_ok _ _ _ _ _ text_ok).
  destruct (field_pointer _ _ _ _ V G LE EV _ _ _ _ _ _ _ _ bytes_ok H) as (o2 & X2 & F2 & GO2 & MX2).
  unfold read_cstates. rewrite X, X2. eexists. split; [reflexivity|].
  split; [destruct o; destruct o2; rewrite ?sum_zero in *; lia|]. split; [split; assumption|]. intros _. apply MX2, MX, MO.
Qed.
Lemma contract_ok : promise (ver_contract b) read_contract tables_contract held_contract.
Proof.
  intros p s s' H. unfold ver_contract in H. opened H. pt H cid_ok.
  destruct (field_pointer _ _ _ _ V G LE EV _ _ _ _ _ _ _ _ cstates_ok H) as (o2 & X2 & F2 & GO2 & MX2).
  unfold read_contract. rewrite X, X2. eexists. split; [reflexivity|].
  split; [unfold tables_contract; cbn [fc_id fc_states]; destruct o; destruct o2; cbn [one]; lia|].
  split; [split; assumption|]. intros _. apply MX2, MX, MO.
Qed.
Lemma num_ok : forall n, promise (ver_num b n) (num n) (fun _ => 1%Z) (fun v => 0 <= v < 2 ^ (8 * Z.of_nat n))%Z.
Proof.
  intros n p s s' H. unfold ver_num in H. opened H.
  destruct (field_scalar _ _ _ _ V G LE EV _ _ _ _ H) as [(v & X & R) F]. unfold num. rewrite X.
  eexists. split; [reflexivity|]. split; [lia|]. split; [exact R|]. lia.
Qed.
Lemma weaken : forall A B run d (n : A -> Z) (g : A -> Prop) (f : A -> B) (d' : list Z -> nat -> option B) (m : B -> Z) (g' : B -> Prop),
  promise run d n g -> (forall p, d' b p = (v <- d b p; Some (f v))) -> (forall v, m (f v) = n v) ->
  (forall v, g v -> g' (f v)) -> promise run d' m g'.
Proof.
  intros A B run d n g f d' m g' P D M GG p s s' H. destruct (P p s s' H) as (v & X & F & GV & MX). rewrite D, X.
  exists (f v). split; [reflexivity|]. rewrite M. split; [exact F|]. split; [apply GG; exact GV|exact MX].
Qed.
Lemma inum_ok : forall n, n <> 0 ->
  promise (ver_num b n) (inum n) (fun _ => 1%Z) (fun v => - 2 ^ (8 * Z.of_nat n - 1) <= v < 2 ^ (8 * Z.of_nat n - 1))%Z.
Proof. intros n N. apply (weaken _ _ _ _ _ _ (signed n) _ _ _ (num_ok n)); try reflexivity. intros v R. apply signed_range; assumption. Qed.
Lemma idx_ok : forall n, promise (ver_num b n) (read_idx n) (fun _ => 1%Z) (fun i => (Z.of_N i < 2 ^ (8 * Z.of_nat n))%Z).
Proof. intros n. apply (weaken _ _ _ _ _ _ Z.to_N _ _ _ (num_ok n)); try reflexivity. intros v R. lia. Qed.
Lemma idx4_ok : promise (ver_num b 4) (read_idx 4) (fun _ => 1%Z) (fun i => (i < 2 ^ 32)%N).
Proof.
  apply (weaken _ _ _ _ _ _ (fun i => i) _ _ _ (idx_ok 4)); try reflexivity; [intros p; destruct (read_idx 4 b p); reflexivity|].
  intros v R. change (2 ^ (8 * Z.of_nat 4))%Z with 4294967296%Z in R. change (2 ^ 32)%N with 4294967296%N. lia.
Qed.
Lemma idx2_ok : promise (ver_num b 2) (read_idx 2) (fun _ => 1%Z) (fun i => (i < 2 ^ 16)%N).
Proof.
  apply (weaken _ _ _ _ _ _ (fun i => i) _ _ _ (idx_ok 2)); try reflexivity; [intros p; destruct (read_idx 2 b p); reflexivity|].
  intros v R. change (2 ^ (8 * Z.of_nat 2))%Z with 65536%Z in R. change (2 ^ 16)%N with 65536%N. lia.
Qed.
Lemma fb_text_ok : promise (ver_fb_text b) fb_text (fun _ => 1%Z) (if_any utf8).
Proof.
  intros p s s' H. unfold ver_fb_text in H. opened H.
  destruct (field_pointer _ _ _ _ V G LE EV _ _ _ _ _ _ _ _ text_ok H) as (o & X & F & GO & MX).
  unfold fb_text. rewrite X. eexists. split; [reflexivity|]. split; [destruct o; lia|]. split; [exact GO|]. intros _. apply MX, MO.
Qed.
Lemma object_ok : promise (ver_object b) read_object tables_object held_object.
Proof.
  intros p s s' H. unfold ver_object in H. opened H. pt H idx2_ok.
  destruct (field_pointer _ _ _ _ V G LE EV _ _ _ _ _ _ _ _ (vector_ok _ _ _ _ _ idx4_ok) H) as (o2 & X2 & F2 & GO2 & MX2).
  unfold read_object. rewrite X, X2. eexists. split; [reflexivity|].
  split; [unfold tables_object; cbn [fo_contract fo_states]; destruct o; destruct o2; cbn [one some_list length];
    rewrite ?sum_one in *; lia|].
  split; [split; assumption|]. intros _. apply MX2, MX, MO.
Qed.

Lemma union_ok : forall A run d (n : A -> Z) g t p s s', promise run d n g -> slot b t 1 = Some (Some p) ->
  ver_off b run p s = Some s' -> exists v, union_value d b t = Some v /\ (fst s' = fst s + n v)%Z /\ g v /\
    (fst s <= max_tables -> fst s' <= max_tables)%Z.
Proof.
  intros A run d n g t p s s' P S H. unfold ver_off in H.
  destruct (ver_in b 4 p s) as [s1|] eqn:I; [|discriminate H]. apply in_ok in I. destruct I as (_ & _ & F & _).
  unfold union_value, pointer. rewrite S. destruct (follow b p) as [q|]; [|discriminate H].
  destruct (P _ _ _ H) as (v & D & F2 & GV & MX). rewrite D. exists v. split; [reflexivity|]. split; [lia|].
  split; [exact GV|]. rewrite F in MX. exact MX.
Qed.

Lemma state_ok : promise (ver_state b) read_state tables_state held_value.
Proof.
  intros p s s' H. unfold ver_state in H. opened H.
  destruct (ver_slot b vt len p 1 s1) as [[val s2]|] eqn:S1; [|discriminate H].
  destruct (ver_slot b vt len p 0 s2) as [[key s3]|] eqn:S0; [|discriminate H].
  destruct (slot_ok _ _ _ _ _ _ _ _ V G LE EV S1) as [Q1 F1].
  destruct (slot_ok _ _ _ _ _ _ _ _ V G LE EV S0) as [Q0 F0].
  unfold read_state, scalar. rewrite Q0. destruct key as [k|]; destruct val as [v|]; try discriminate H.
  - destruct (ver_in b 1 k s3) as [s4|] eqn:I; [|discriminate H]. apply in_ok in I. destruct I as (_ & _ & F4 & _).
    destruct (get 1 b k) as [tag|] eqn:T; [|discriminate H].
    pose proof (get_range _ _ _ T) as TR. change (2 ^ (8 * Z.of_nat 1))%Z with 256%Z in TR.
    unfold ver_union in H.
    assert (K : forall t f, (fst s' = fst s + t)%Z -> tables_state f = t -> held_value f -> (fst s4 <= max_tables -> fst s' <= max_tables)%Z ->
      exists w, Some f = Some w /\ (fst s' = fst s + tables_state w)%Z /\ held_value w /\ (fst s <= max_tables -> fst s' <= max_tables)%Z)
      by (intros t f E1 E2 E3 E4; exists f; split; [reflexivity|]; split; [congruence|]; split; [exact E3|]; intros _; apply E4; lia).
    destruct tag as [|tag|tag]; [| |lia];
      do 4 (try (destruct tag as [tag|tag|]));
      first
        [ (assert (s' = s4) by congruence; subst s'; eapply (K 1%Z); [lia|reflexivity|cbn [held_value]; try exact I; change (2 ^ 8)%Z with 256%Z; lia|lia])
        | (destruct (union_ok _ _ _ _ _ _ _ _ _ (num_ok _) Q1 H) as (w & U & FU & GU & MU);
           rewrite U; eapply (K 2%Z); [lia|reflexivity|try exact I; exact GU|exact MU])
        | (destruct (union_ok _ _ _ _ _ _ _ _ _ (inum_ok (S _) (fun e => O_S _ (eq_sym e))) Q1 H) as (w & U & FU & GU & MU);
           rewrite U; eapply (K 2%Z); [lia|reflexivity|exact GU|exact MU])
        | (destruct (union_ok _ _ _ _ _ _ _ _ _ idx4_ok Q1 H) as (w & U & FU & GU & MU);
           rewrite U; eapply (K 2%Z); [lia|reflexivity|exact GU|exact MU])
        | (destruct (union_ok _ _ _ _ _ _ _ _ _ idx2_ok Q1 H) as (w & U & FU & GU & MU);
           rewrite U; eapply (K 2%Z); [lia|reflexivity|exact GU|exact MU])
        | (destruct (union_ok _ _ _ _ _ _ _ _ _ fb_text_ok Q1 H) as (w & U & FU & GU & MU);
           rewrite U; eapply (K 2%Z); [lia|reflexivity|exact GU|exact MU]) ].
  - assert (s' = s3) by congruence. subst s'. exists FNone. split; [reflexivity|]. cbn [tables_state]. split; [lia|]. split; [exact I|]. lia.
Qed.

Lemma baseline_ok : promise (ver_baseline b) read_baseline tables held.
Proof.
  intros p s s' H. unfold ver_baseline in H. opened H.
  pt H (vector_ok _ _ _ _ _ contract_ok). pt H (vector_ok _ _ _ _ _ state_ok).
  destruct (field_pointer _ _ _ _ V G LE EV _ _ _ _ _ _ _ _ (vector_ok _ _ _ _ _ object_ok) H) as (o3 & X3 & F3 & GO3 & MX3).
  unfold read_baseline. rewrite X, X0, X3. eexists. split; [reflexivity|].
  split; [unfold tables; cbn [fb_contracts fb_states fb_objects];
    destruct o; destruct o0; destruct o3; cbn [some_list map sum fold_right]; unfold sum in *; lia|].
  split; [split; [exact GO|split; [exact GO0|exact GO3]]|]. intros _. apply MX3, MX0, MX, MO.
Qed.

Lemma verify_ok : forall s, verify b = Some s ->
  exists f, read_root b = Some f /\ fst s = tables f /\ held f /\ (tables f <= max_tables)%Z.
Proof.
  intros s H. unfold verify, ver_off in H.
  destruct (ver_in b 4 0 (0%Z, 0%Z)) as [s1|] eqn:I; [|discriminate H]. apply in_ok in I. destruct I as (_ & _ & F & _).
  unfold read_root. destruct (follow b 0) as [t|]; [|discriminate H].
  destruct (baseline_ok _ _ _ H) as (f & R & F2 & GF & MF). exists f. split; [exact R|]. cbn in F.
  assert (ST : fst s = tables f) by lia. split; [exact ST|]. split; [exact GF|]. rewrite <- ST. apply MF. rewrite F. unfold max_tables. lia.
Qed.
End Read.
