(** C59: handles, ids and contract ids as keys of hash maps and sets. *)
From Verif Require Import BaseProofs Types Contract Baseline BaselineProofs DynEnum Flat DeserProofs.
From Verif Require Import Keys.
Open Scope list_scope.
Open Scope nat_scope.

(** ** Specification: a finite map, which knows nothing of hashing. *)
Section Spec.
Context {K V : Type}.
Definition fmap : Type := K -> option V.
Inductive answers (m : fmap) : hop (K := K) (V := V) -> hret (K := K) (V := V) -> fmap -> Prop :=
| a_get k : answers m (HGet k) (RVal (m k)) m
| a_insert k v m' : m' k = Some v -> (forall k', k' <> k -> m' k' = m k') -> answers m (HInsert k v) (RVal (m k)) m'
| a_remove k m' : m' k = None -> (forall k', k' <> k -> m' k' = m k') -> answers m (HRemove k) (RVal (m k)) m'
| a_grow n : answers m (HGrow n) RNone m
| a_iter l : NoDup (map fst l) -> (forall k v, In (k, v) l <-> m k = Some v) -> answers m HIter (RList l) m.
Inductive a_finite_map : fmap -> list (hop (K := K) (V := V)) -> list (hret (K := K) (V := V)) -> Prop :=
| fm_nil m : a_finite_map m [] []
| fm_cons m o r m' os rs : answers m o r m' -> a_finite_map m' os rs -> a_finite_map m (o :: os) (r :: rs).
End Spec.

(** ** Keys *)
Lemma id_eqb_eq a b : id_eqb a b = true <-> a = b.
Proof.
  destruct a as [n h], b as [n' h']. unfold id_eqb. cbn [fst snd]. rewrite andb_true_iff, Nat.eqb_eq, index_eqb_eq.
  split; [intros [-> ->]; reflexivity|intros E; injection E as -> ->; tauto].
Qed.
Lemma enum_eqb_eq a b : enum_eqb index_eqb a b = true <-> a = b.
Proof.
  split.
  - destruct a as [a|a], b as [b|b]; cbn [enum_eqb]; try discriminate; destruct a, b; cbn; try discriminate;
      intros E; apply index_eqb_eq in E; subst; reflexivity.
  - intros <-. destruct a as [a|a]; destruct a; cbn; apply index_eqb_eq; reflexivity.
Qed.
Lemma key_eqb_eq k (a b : key k) : key_eqb k a b = true <-> a = b.
Proof.
  destruct k; cbn [key_eqb key] in *.
  - apply index_eqb_eq.
  - apply id_eqb_eq.
  - apply enum_eqb_eq.
  - apply contract_id_eqb_eq.
  - apply Nat.eqb_eq.
Qed.
Lemma hash_index_inj a b : hash_index a = hash_index b -> a = b.
Proof. destruct a, b. unfold hash_index. cbn. intros E. injection E as E1 E2. apply Nnat.Nat2N.inj in E1. congruence. Qed.
Lemma hash_str_inj s s' l l' :
  (forall c, In c (Coq.Strings.String.list_ascii_of_string s) -> Coq.Strings.Ascii.N_of_ascii c <> 255%N) ->
  (forall c, In c (Coq.Strings.String.list_ascii_of_string s') -> Coq.Strings.Ascii.N_of_ascii c <> 255%N) ->
  hash_str s ++ l = hash_str s' ++ l' -> s = s' /\ l = l'.
Proof.
  unfold hash_str. revert s'. induction s as [|c s IH]; intros [|c' s'] H H' E; cbn [Coq.Strings.String.list_ascii_of_string map app] in *.
  - injection E as E. tauto.
  - injection E as E _. exfalso. apply (H' c'); [left; reflexivity|congruence].
  - injection E as E _. exfalso. apply (H c); [left; reflexivity|congruence].
  - injection E as E1 E2.
    assert (c = c') by (rewrite <- (Coq.Strings.Ascii.ascii_N_embedding c), <- (Coq.Strings.Ascii.ascii_N_embedding c'), E1; reflexivity).
    subst c'. destruct (IH s') as [-> ->]; [intros; apply H; right; assumption|intros; apply H'; right; assumption|exact E2|split; reflexivity].
Qed.

(** A name is text: the byte 255 does not occur in UTF-8. *)
Definition textual (k : keykind) : key k -> Prop :=
  match k with
  | KContract => fun c => forall a, In a (Coq.Strings.String.list_ascii_of_string (cid_name c)) -> Coq.Strings.Ascii.N_of_ascii a <> 255%N
  | _ => fun _ => True
  end.

(** [==] on keys is being the same key; equal keys hash alike, and different keys never do
    before the hasher has mixed what it is given (no collisions are built into the keys). *)
Theorem C59_keys_are_lawful :
  forall k (a b : key k),
    (key_eqb k a b = true <-> a = b) /\
    (key_eqb k a b = true -> key_hash k a = key_hash k b) /\
    (textual k a -> textual k b -> key_hash k a = key_hash k b -> a = b).
Proof.
  intros k a b. split; [apply key_eqb_eq|]. split; [intros E; apply key_eqb_eq in E; congruence|].
  destruct k; cbn [key_hash key textual] in *; intros Ha Hb E.
  - apply hash_index_inj; exact E.
  - destruct a as [n h], b as [n' h']. unfold hash_id, hash_pos in E. cbn [fst snd app] in E.
    injection E as E1 E2 E3. apply Nnat.Nat2N.inj in E1. f_equal; [exact E1|].
    apply hash_index_inj. unfold hash_index. congruence.
  - destruct a as [a|a], b as [b|b]; cbn [hash_enum] in E; unfold variant in E; try discriminate E;
      destruct a, b; cbn [hash_enum_prim hash_enum_vec] in E; unfold variant in E; try discriminate E;
      injection E as E1 E2; do 2 f_equal; apply hash_index_inj; unfold hash_index; congruence.
  - destruct a as [n [[v1 v2] v3]], b as [n' [[w1 w2] w3]]. unfold hash_cid in E. cbn [cid_ver cid_name] in E.
    apply hash_str_inj in E; [|exact Ha|exact Hb]. destruct E as [-> E]. injection E as -> -> ->. reflexivity.
  - unfold hash_pos in E. injection E as E. apply Nnat.Nat2N.inj in E. exact E.
Qed.
Print Assumptions C59_keys_are_lawful.

(** ** Tables *)
Section Tables.
Context {K V : Type} (eqb : K -> K -> bool) (feed : K -> list word) (hf : list word -> nat).
Context (Heq : forall a b, eqb a b = true <-> a = b).
Notation tbl := (table (K := K) (V := V)).

Lemma chain_get_in (l : list (K * V)) k v : NoDup (map fst l) -> (chain_get eqb l k = Some v <-> In (k, v) l).
Proof using Heq.
  clear hf feed.
  induction l as [|[k' v'] l IH]; cbn [chain_get map fst In]; intros N.
  - split; [discriminate|tauto].
  - inversion N as [|? ? N1 N2]; subst. destruct (eqb k k') eqn:E.
    + apply Heq in E. subst k'. split.
      * intros Q. injection Q as ->. left. reflexivity.
      * intros [Q|Q]; [injection Q as ->; reflexivity|]. exfalso. apply N1. change k with (fst (k, v)). apply in_map. exact Q.
    + rewrite (IH N2). split; [tauto|]. intros [Q|Q]; [|exact Q]. injection Q as -> ->.
      assert (eqb k k = true) by (apply Heq; reflexivity). congruence.
Qed.
Lemma chain_put_in (l : list (K * V)) k v k' v' : NoDup (map fst l) ->
  (In (k', v') (chain_put eqb l k v) <-> (k' = k /\ v' = v) \/ (k' <> k /\ In (k', v') l)).
Proof using Heq.
  clear hf feed.
  induction l as [|[a x] l IH]; cbn [chain_put map fst In]; intros N.
  - split; [intros [Q|[]]; injection Q as <- <-; tauto|intros [[-> ->]|[_ []]]; left; reflexivity].
  - inversion N as [|? ? N1 N2]; subst. destruct (eqb k a) eqn:E.
    + apply Heq in E. subst a. cbn [In]. split.
      * intros [Q|Q]; [injection Q as <- <-; tauto|]. right. split; [|tauto]. intros ->. apply N1.
        change k with (fst (k, v')). apply in_map. exact Q.
      * intros [[-> ->]|[Q1 [Q2|Q2]]]; [left; reflexivity|injection Q2 as <- <-; congruence|right; exact Q2].
    + cbn [In]. rewrite (IH N2). split.
      * intros [Q|Q]; [|tauto]. injection Q as <- <-. right. split; [|tauto]. intros ->.
        assert (eqb k k = true) by (apply Heq; reflexivity). congruence.
      * tauto.
Qed.
Lemma chain_put_keys (l : list (K * V)) k v k' : In k' (map fst (chain_put eqb l k v)) -> k' = k \/ In k' (map fst l).
Proof using.
  clear. induction l as [|[a x] l IH]; cbn [chain_put map fst In].
  - intros [->|[]]; tauto.
  - destruct (eqb k a); cbn [map fst In]; [tauto|]. intros [->|Q]; [tauto|]. apply IH in Q. tauto.
Qed.
Lemma chain_put_nodup (l : list (K * V)) k v : NoDup (map fst l) -> NoDup (map fst (chain_put eqb l k v)).
Proof using Heq.
  clear hf feed.
  induction l as [|[a x] l IH]; cbn [chain_put map fst]; intros N; [repeat constructor; intros []|].
  inversion N as [|? ? N1 N2]; subst. destruct (eqb k a) eqn:E; cbn [map fst]; [constructor; assumption|].
  constructor; [|apply IH; exact N2]. intros Q. apply chain_put_keys in Q. destruct Q as [->|Q]; [|tauto].
  assert (eqb k k = true) by (apply Heq; reflexivity). congruence.
Qed.
Lemma chain_del_in (l : list (K * V)) k k' v' : NoDup (map fst l) ->
  (In (k', v') (chain_del eqb l k) <-> k' <> k /\ In (k', v') l).
Proof using Heq.
  clear hf feed.
  induction l as [|[a x] l IH]; cbn [chain_del map fst In]; intros N; [tauto|].
  inversion N as [|? ? N1 N2]; subst. destruct (eqb k a) eqn:E.
  - apply Heq in E. subst a. split.
    + intros Q. split; [|tauto]. intros ->. apply N1. change k with (fst (k, v')). apply in_map. exact Q.
    + intros [Q1 [Q2|Q2]]; [injection Q2 as <- <-; congruence|exact Q2].
  - cbn [In]. rewrite (IH N2). split; [|tauto]. intros [Q|Q]; [|tauto]. injection Q as <- <-. split; [|tauto]. intros ->.
    assert (eqb k k = true) by (apply Heq; reflexivity). congruence.
Qed.
Lemma chain_del_nodup (l : list (K * V)) k : NoDup (map fst l) -> NoDup (map fst (chain_del eqb l k)).
Proof using Heq.
  clear hf feed.
  induction l as [|[a x] l IH]; cbn [chain_del map fst]; intros N; [constructor|].
  inversion N as [|? ? N1 N2]; subst. destruct (eqb k a) eqn:E; cbn [map fst]; [exact N2|].
  constructor; [|apply IH; exact N2]. intros Q. apply in_map_iff in Q. destruct Q as [[a' y] [Q1 Q2]]. cbn [fst] in Q1. subst a'.
  apply chain_del_in in Q2; [|exact N2]. apply N1. change a with (fst (a, y)). apply in_map. tauto.
Qed.

(** The table holds exactly the pairs of the map, each in the bucket of its key. *)
Record holds (t : tbl) (m : K -> option V) : Prop := {
  h_some : length t <> 0;
  h_nodup : forall i, NoDup (map fst (nth i t []));
  h_home : forall i k v, In (k, v) (nth i t []) -> i = bucket feed hf t k;
  h_map : forall k v, m k = Some v <-> In (k, v) (nth (bucket feed hf t k) t [])
}.
Lemma bucket_lt (t : tbl) k : length t <> 0 -> bucket feed hf t k < length t.
Proof using. intros H. unfold bucket. apply Nat.mod_upper_bound. exact H. Qed.
Lemma holds_get t m k : holds t m -> ht_get eqb feed hf t k = m k.
Proof using Heq.
  intros [A B C D]. unfold ht_get.
  destruct (chain_get eqb (nth (bucket feed hf t k) t []) k) as [v|] eqn:E.
  - apply chain_get_in in E; [|apply B]. symmetry. apply D. exact E.
  - destruct (m k) as [v|] eqn:F; [|reflexivity]. apply D in F. apply chain_get_in in F; [congruence|apply B].
Qed.
Lemma nth_set (t : tbl) i j l : i < length t -> nth j (list_set t i l) [] = if Nat.eqb j i then l else nth j t [].
Proof using.
  clear. revert i j. induction t as [|h t IH]; intros i j H; [cbn in H; lia|].
  destruct i as [|i], j as [|j]; cbn [list_set nth Nat.eqb]; try reflexivity. cbn [length] in H. apply IH. lia.
Qed.
(** Replacing the chain of one bucket. *)
Lemma holds_set t m m' k l : holds t m -> NoDup (map fst l) ->
  (forall k' v', In (k', v') l -> bucket feed hf t k' = bucket feed hf t k) ->
  (forall k' v', bucket feed hf t k' = bucket feed hf t k -> (m' k' = Some v' <-> In (k', v') l)) ->
  (forall k', bucket feed hf t k' <> bucket feed hf t k -> m' k' = m k') ->
  holds (list_set t (bucket feed hf t k) l) m'.
Proof using.
  intros [A B C D] N H1 H2 H3. pose proof (bucket_lt t k A) as L.
  assert (S' : forall k', bucket feed hf (list_set t (bucket feed hf t k) l) k' = bucket feed hf t k').
  { intros k'. unfold bucket. rewrite list_set_length. reflexivity. }
  constructor.
  - rewrite list_set_length. exact A.
  - intros i. rewrite nth_set by exact L. destruct (Nat.eqb i (bucket feed hf t k)); [exact N|apply B].
  - intros i k' v'. rewrite nth_set by exact L. rewrite S'. destruct (Nat.eqb_spec i (bucket feed hf t k)) as [->|E].
    + intros Q. symmetry. apply (H1 _ _ Q).
    + apply C.
  - intros k' v'. rewrite S', nth_set by exact L. destruct (Nat.eqb_spec (bucket feed hf t k') (bucket feed hf t k)) as [E|E].
    + apply H2. exact E.
    + rewrite H3 by exact E. apply D.
Qed.
Lemma eq_or (a b : K) : a = b \/ a <> b.
Proof using Heq. destruct (eqb a b) eqn:E; [left; apply Heq; exact E|right; intros F; apply Heq in F; congruence]. Qed.
Definition put (m : K -> option V) k v : K -> option V := fun k' => if eqb k' k then Some v else m k'.
Definition del (m : K -> option V) k : K -> option V := fun k' => if eqb k' k then None else m k'.
Lemma eqb_refl' k : eqb k k = true.
Proof using Heq. apply Heq. reflexivity. Qed.
Lemma eqb_ne k k' : k' <> k -> eqb k' k = false.
Proof using Heq. intros H. destruct (eqb k' k) eqn:E; [apply Heq in E; contradiction|reflexivity]. Qed.
Lemma holds_insert t m k v : holds t m -> holds (snd (ht_insert eqb feed hf t k v)) (put m k v).
Proof using Heq.
  intros H. pose proof H as [A B C D]. unfold ht_insert. cbn [snd]. apply (holds_set t m).
  - exact H.
  - apply chain_put_nodup, B.
  - intros k' v' Q. apply chain_put_in in Q; [|apply B]. destruct Q as [[-> _]|[_ Q]]; [reflexivity|].
    symmetry. apply (C _ _ _ Q).
  - intros k' v' E. rewrite chain_put_in by apply B. unfold put. destruct (eq_or k' k) as [->|Ne].
    + rewrite eqb_refl'. split; [intros Q; injection Q as ->; tauto|intros [[_ ->]|[F _]]; [reflexivity|congruence]].
    + rewrite eqb_ne by exact Ne. rewrite D, E. tauto.
  - intros k' E. unfold put. rewrite eqb_ne; [reflexivity|]. congruence.
Qed.
Lemma holds_remove t m k : holds t m -> holds (snd (ht_remove eqb feed hf t k)) (del m k).
Proof using Heq.
  intros H. pose proof H as [A B C D]. unfold ht_remove. cbn [snd]. apply (holds_set t m).
  - exact H.
  - apply chain_del_nodup, B.
  - intros k' v' Q. apply chain_del_in in Q; [|apply B]. symmetry. apply (C _ _ _ (proj2 Q)).
  - intros k' v' E. rewrite chain_del_in by apply B. unfold del. destruct (eq_or k' k) as [->|Ne].
    + rewrite eqb_refl'. split; [discriminate|tauto].
    + rewrite eqb_ne by exact Ne. rewrite D, E. tauto.
  - intros k' E. unfold del. rewrite eqb_ne; [reflexivity|]. congruence.
Qed.
Lemma nth_repeat_nil n i : nth i (repeat (@nil (K * V)) n) [] = [].
Proof using. clear. revert i. induction n as [|n IH]; intros [|i]; cbn [repeat nth]; auto. Qed.
Lemma holds_new n : holds (ht_new n) (fun _ => None).
Proof using.
  unfold ht_new. constructor.
  - rewrite repeat_length. discriminate.
  - intros i. rewrite nth_repeat_nil. constructor.
  - intros i k v. rewrite nth_repeat_nil. intros [].
  - intros k v. rewrite nth_repeat_nil. cbn [In]. split; [discriminate|tauto].
Qed.
Lemma in_concat_nth (t : tbl) p : In p (concat t) <-> exists i, In p (nth i t []).
Proof using.
  clear. induction t as [|l t IH]; cbn [concat].
  - split; [intros []|intros [[|i] []]].
  - rewrite in_app_iff, IH. split.
    + intros [Q|[i Q]]; [exists 0; exact Q|exists (S i); exact Q].
    + intros [[|i] Q]; [left; exact Q|right; exists i; exact Q].
Qed.
Lemma nodup_app' (l l' : list K) : NoDup l -> NoDup l' -> (forall x, In x l -> ~ In x l') -> NoDup (l ++ l').
Proof using.
  clear. induction l as [|a l IH]; cbn [app]; intros N N' H; [exact N'|]. inversion N; subst. constructor.
  - rewrite in_app_iff. intros [Q|Q]; [contradiction|]. apply (H a); [left; reflexivity|exact Q].
  - apply IH; [assumption|exact N'|]. intros x Q. apply H. right. exact Q.
Qed.
Lemma concat_nodup (t : tbl) :
  (forall i, NoDup (map fst (nth i t []))) ->
  (forall i j k v v', In (k, v) (nth i t []) -> In (k, v') (nth j t []) -> i = j) -> NoDup (map fst (concat t)).
Proof using.
  clear. induction t as [|l t IH]; cbn [concat]; intros N H; [constructor|].
  rewrite map_app. apply nodup_app'.
  - apply (N 0).
  - apply IH; [intros i; apply (N (S i))|]. intros i j k v v' Q Q'. assert (S i = S j) by (apply (H (S i) (S j) k v v'); assumption). lia.
  - intros k Q Q'. apply in_map_iff in Q. destruct Q as [[k1 v] [E1 Q]]. apply in_map_iff in Q'. destruct Q' as [[k2 v'] [E2 Q']].
    cbn [fst] in E1, E2. subst k1 k2. apply in_concat_nth in Q'. destruct Q' as [i Q'].
    assert (0 = S i) by (apply (H 0 (S i) k v v'); assumption). discriminate.
Qed.
Lemma holds_iter t m : holds t m ->
  NoDup (map fst (ht_iter t)) /\ (forall k v, In (k, v) (ht_iter t) <-> m k = Some v).
Proof using.
  intros [A B C D]. unfold ht_iter. split.
  - apply concat_nodup; [exact B|]. intros i j k v v' Q Q'. rewrite (C _ _ _ Q), (C _ _ _ Q'). reflexivity.
  - intros k v. rewrite D, in_concat_nth. split; [intros [i Q]|intros Q; eexists; exact Q].
    rewrite <- (C _ _ _ Q). exact Q.
Qed.
Lemma holds_ext t m m' : (forall k, m k = m' k) -> holds t m -> holds t m'.
Proof using. intros E [A B C D]. constructor; auto. intros k v. rewrite <- E. apply D. Qed.
Lemma holds_fold (l : list (K * V)) : forall u m, NoDup (map fst l) -> holds u m ->
  holds (fold_left (fun u p => snd (ht_insert eqb feed hf u (fst p) (snd p))) l u)
        (fun k => match chain_get eqb l k with Some v => Some v | None => m k end).
Proof using Heq.
  induction l as [|[k v] l IH]; intros u m N H; cbn [fold_left chain_get fst snd]; [exact H|].
  inversion N as [|? ? N1 N2]; subst. apply (holds_insert u m k v) in H. apply (IH _ _ N2) in H.
  eapply holds_ext; [|exact H]. intros k'. unfold put. cbv beta. destruct (eq_or k' k) as [->|Ne].
  - rewrite eqb_refl'. destruct (chain_get eqb l k) as [w|] eqn:E; [|reflexivity]. apply chain_get_in in E; [|exact N2].
    exfalso. apply N1. change k with (fst (k, w)). apply in_map. exact E.
  - rewrite eqb_ne by exact Ne. reflexivity.
Qed.
Lemma holds_grow t m n : holds t m -> holds (ht_grow eqb feed hf t n) m.
Proof using Heq.
  intros H. destruct (holds_iter t m H) as [N I']. unfold ht_grow.
  eapply holds_ext; [|apply (holds_fold _ _ _ N (holds_new n))]. intros k. cbv beta.
  destruct (chain_get eqb (ht_iter t) k) as [v|] eqn:E.
  - apply chain_get_in in E; [|exact N]. symmetry. apply I'. exact E.
  - destruct (m k) as [v|] eqn:F; [|reflexivity]. apply I' in F. apply chain_get_in in F; [congruence|exact N].
Qed.
Lemma run_finite_map ops : forall t m rs u, holds t m -> hrun eqb feed hf t ops = (rs, u) -> a_finite_map m ops rs.
Proof using Heq.
  induction ops as [|o ops IH]; intros t m rs u H E; cbn [hrun] in E.
  - injection E as <- <-. constructor.
  - destruct (hstep eqb feed hf t o) as [x t1] eqn:S1. destruct (hrun eqb feed hf t1 ops) as [xs w] eqn:R.
    injection E as <- <-. destruct o as [k|k v|k|n|]; cbn [hstep] in S1.
    + injection S1 as <- <-. rewrite (holds_get t m k H). eapply fm_cons; [apply a_get|]. eapply IH; eassumption.
    + unfold ht_insert in S1. injection S1 as <- <-. rewrite (holds_get t m k H).
      eapply fm_cons with (m' := put m k v).
      * apply a_insert; [unfold put; rewrite eqb_refl'; reflexivity|intros k' Ne; unfold put; rewrite eqb_ne by exact Ne; reflexivity].
      * eapply IH; [|exact R]. apply (holds_insert t m k v H).
    + unfold ht_remove in S1. injection S1 as <- <-. rewrite (holds_get t m k H).
      eapply fm_cons with (m' := del m k).
      * apply a_remove; [unfold del; rewrite eqb_refl'; reflexivity|intros k' Ne; unfold del; rewrite eqb_ne by exact Ne; reflexivity].
      * eapply IH; [|exact R]. apply (holds_remove t m k H).
    + injection S1 as <- <-. eapply fm_cons; [apply a_grow|]. eapply IH; [|exact R]. apply holds_grow. exact H.
    + injection S1 as <- <-. destruct (holds_iter t m H) as [N I']. eapply fm_cons; [apply a_iter; [exact N|exact I']|].
      eapply IH; eassumption.
Qed.
End Tables.

(** Any key type, any values, any hash function, any initial size: every history of calls
    on the table is one of a finite map.  In particular growing changes no answer, and
    iteration yields every key once, with its last value. *)
Theorem C59_hash_maps_are_finite_maps :
  forall (k : keykind) (V : Type) (hf : list word -> nat) n (ops : list (hop (K := key k) (V := V))) rs t,
    hrun (key_eqb k) (key_hash k) hf (ht_new n) ops = (rs, t) ->
    a_finite_map (fun _ => None) ops rs.
Proof.
  intros k V hf n ops rs t E. eapply run_finite_map; [apply key_eqb_eq|apply holds_new|exact E].
Qed.
Print Assumptions C59_hash_maps_are_finite_maps.

(** A client's map from handles to names, in a table of two buckets whose hash function
    sees every collision there is. *)
Definition kyOps : list (hop (K := key KHandle) (V := nat)) :=
  [HInsert (mkIndex 0 0%N) 10; HInsert (mkIndex 0 1%N) 11; HInsert (mkIndex 0 0%N) 12;
   HGet (mkIndex 0 0%N); HGrow 7; HRemove (mkIndex 0 1%N); HGet (mkIndex 0 1%N); HIter].
Example C59_map_met :
  fst (hrun (key_eqb KHandle) (key_hash KHandle) (fun _ => 5) (ht_new 1) kyOps) =
    [RVal None; RVal None; RVal (Some 10); RVal (Some 12); RNone; RVal (Some 11); RVal None; RList [(mkIndex 0 0%N, 12)]] /\
  textual KContract (mkCid (Coq.Strings.String.String (Coq.Strings.Ascii.ascii_of_N 65) Coq.Strings.String.EmptyString) (1, 2, 3)%N) /\
  key_hash KContract (mkCid (Coq.Strings.String.String (Coq.Strings.Ascii.ascii_of_N 65) Coq.Strings.String.EmptyString) (1, 2, 3)%N) =
    [Word 1 65; Word 1 255; Word 2 1; Word 2 2; Word 2 3] /\
  key_eqb KDyn (EPrim (EU8 (mkIndex 0 0%N))) (EPrim (EI8 (mkIndex 0 0%N))) = false.
Proof.
  split; [reflexivity|]. split; [|split; reflexivity]. intros a [<-|[]]. discriminate.
Qed.

(** ** Two-way maps *)
Section Bimaps.
Context {A B : Type} (eqa : A -> A -> bool) (eqb : B -> B -> bool) (feeda : A -> list word) (feedb : B -> list word)
        (hf : list word -> nat).
Context (Ha : forall x y, eqa x y = true <-> x = y) (Hb : forall x y, eqb x y = true <-> x = y).
Record bholds (t : two_way (A := A) (B := B)) (m : bimap (A := A) (B := B)) : Prop := {
  b_left : exists f, holds feeda hf (fst t) f /\ forall a b, f a = Some b <-> In (a, b) m;
  b_right : exists g, holds feedb hf (snd t) g /\ forall a b, g b = Some a <-> In (a, b) m;
  b_bij : bij m
}.
Lemma Ra : forall x y, reflect (x = y) (eqa x y).
Proof using Ha. intros x y. apply iff_reflect. symmetry. apply Ha. Qed.
Lemma Rb : forall x y, reflect (x = y) (eqb x y).
Proof using Hb. intros x y. apply iff_reflect. symmetry. apply Hb. Qed.
Lemma bholds_left t m a : bholds t m -> tw_left eqa feeda hf t a = bm_left eqa a m.
Proof using Ha.
  intros [[f [F1 F2]] _ J]. unfold tw_left. rewrite (holds_get eqa feeda hf Ha _ _ _ F1).
  destruct (f a) as [b|] eqn:E.
  - symmetry. apply (bm_left_iff eqa Ra); [exact J|]. apply F2. exact E.
  - destruct (bm_left eqa a m) as [b|] eqn:Q; [|reflexivity]. apply (bm_left_in eqa Ra), F2 in Q. congruence.
Qed.
Lemma bholds_right t m b : bholds t m -> tw_right eqb feedb hf t b = bm_right eqb b m.
Proof using Hb.
  intros [_ [f [F1 F2]] J]. unfold tw_right. rewrite (holds_get eqb feedb hf Hb _ _ _ F1).
  destruct (f b) as [a|] eqn:E.
  - symmetry. apply (bm_right_iff eqb Rb); [exact J|]. apply F2. exact E.
  - destruct (bm_right eqb b m) as [a|] eqn:Q; [|reflexivity]. apply (bm_right_in eqb Rb), F2 in Q. congruence.
Qed.
Lemma bij_filter (m : list (A * B)) p : bij m -> bij (filter p m).
Proof using. clear. intros J a b a' b' H1 H2. apply filter_In in H1, H2. apply J; tauto. Qed.
Lemma holds_del_absent t f (k : A) : holds (V := B) feeda hf t f -> f k = None -> holds feeda hf (snd (ht_remove eqa feeda hf t k)) f.
Proof using Ha.
  intros H E. eapply holds_ext; [|apply (holds_remove eqa feeda hf Ha _ _ k H)].
  intros k'. unfold del. destruct (eqa k' k) eqn:Q; [|reflexivity]. apply Ha in Q. congruence.
Qed.
Lemma bholds_remove_left t m a : bholds t m ->
  bholds (tw_remove_left eqa eqb feeda feedb hf t a) (filter (fun p => negb (eqa a (fst p))) m).
Proof using Ha Hb.
  intros [[f [F1 F2]] [g [G1 G2]] J]. unfold tw_remove_left, ht_remove at 1. cbv zeta.
  rewrite (holds_get eqa feeda hf Ha _ _ _ F1).
  pose proof (holds_remove eqa feeda hf Ha _ _ a F1) as F3. unfold ht_remove in F3. cbn [snd] in F3.
  assert (F4 : forall a' b, del eqa f a a' = Some b <-> In (a', b) (filter (fun p => negb (eqa a (fst p))) m)).
  { intros a' b'. rewrite filter_In. cbn [fst]. rewrite <- F2. unfold del. destruct (Ra a' a) as [->|Ne].
    - rewrite (proj2 (Ha a a) eq_refl). cbn [negb]. split; [discriminate|intros [_ Q]; discriminate].
    - destruct (Ra a a') as [->|_]; [congruence|]. cbn [negb]. tauto. }
  destruct (f a) as [b|] eqn:E.
  - constructor; cbn [fst snd].
    + exists (del eqa f a). split; [exact F3|exact F4].
    + exists (del eqb g b). split; [apply (holds_remove eqb feedb hf Hb); exact G1|].
      intros a' b'. rewrite filter_In. cbn [fst]. rewrite <- G2. unfold del. destruct (Rb b' b) as [->|Ne].
      * split; [discriminate|]. intros [Q1 Q2]. apply G2 in Q1. apply F2 in E.
        assert (a = a') by (apply (J _ _ _ _ E Q1); reflexivity). subst a'. rewrite (proj2 (Ha a a) eq_refl) in Q2. discriminate.
      * split; [|tauto]. intros Q. split; [exact Q|]. destruct (Ra a a') as [<-|_]; [|reflexivity].
        exfalso. apply Ne. apply G2 in Q. apply F2 in E. apply (J _ _ _ _ Q E). reflexivity.
    + apply bij_filter. exact J.
  - constructor; cbn [fst snd].
    + exists (del eqa f a). split; [exact F3|exact F4].
    + exists g. split; [exact G1|]. intros a' b'. rewrite filter_In. cbn [fst]. rewrite <- G2.
      split; [|tauto]. intros Q. split; [exact Q|]. destruct (Ra a a') as [<-|_]; [|reflexivity].
      apply G2, F2 in Q. congruence.
    + apply bij_filter. exact J.
Qed.
Lemma bholds_remove_right t m b : bholds t m ->
  bholds (tw_remove_right eqa eqb feeda feedb hf t b) (filter (fun p => negb (eqb b (snd p))) m).
Proof using Ha Hb.
  intros [[f [F1 F2]] [g [G1 G2]] J]. unfold tw_remove_right, ht_remove at 1. cbv zeta.
  rewrite (holds_get eqb feedb hf Hb _ _ _ G1).
  pose proof (holds_remove eqb feedb hf Hb _ _ b G1) as G3. unfold ht_remove in G3. cbn [snd] in G3.
  assert (G4 : forall a b', del eqb g b b' = Some a <-> In (a, b') (filter (fun p => negb (eqb b (snd p))) m)).
  { intros a' b'. rewrite filter_In. cbn [snd]. rewrite <- G2. unfold del. destruct (Rb b' b) as [->|Ne].
    - rewrite (proj2 (Hb b b) eq_refl). cbn [negb]. split; [discriminate|intros [_ Q]; discriminate].
    - destruct (Rb b b') as [->|_]; [congruence|]. cbn [negb]. tauto. }
  destruct (g b) as [a|] eqn:E.
  - constructor; cbn [fst snd].
    + exists (del eqa f a). split; [apply (holds_remove eqa feeda hf Ha); exact F1|].
      intros a' b'. rewrite filter_In. cbn [snd]. rewrite <- F2. unfold del. destruct (Ra a' a) as [->|Ne].
      * split; [discriminate|]. intros [Q1 Q2]. apply F2 in Q1. apply G2 in E.
        assert (b = b') by (apply (J _ _ _ _ E Q1); reflexivity). subst b'. rewrite (proj2 (Hb b b) eq_refl) in Q2. discriminate.
      * split; [|tauto]. intros Q. split; [exact Q|]. destruct (Rb b b') as [<-|_]; [|reflexivity].
        exfalso. apply Ne. apply F2 in Q. apply G2 in E. apply (J _ _ _ _ Q E). reflexivity.
    + exists (del eqb g b). split; [exact G3|exact G4].
    + apply bij_filter. exact J.
  - constructor; cbn [fst snd].
    + exists f. split; [exact F1|]. intros a' b'. rewrite filter_In. cbn [snd]. rewrite <- F2.
      split; [|tauto]. intros Q. split; [exact Q|]. destruct (Rb b b') as [<-|_]; [|reflexivity].
      apply F2, G2 in Q. congruence.
    + exists (del eqb g b). split; [exact G3|exact G4].
    + apply bij_filter. exact J.
Qed.
Lemma bholds_link t m a b : bholds t m -> bm_fresh eqa eqb a b m = true ->
  bholds (tw_link eqa eqb feeda feedb hf t a b) (m ++ [(a, b)]).
Proof using Ha Hb.
  intros [[f [F1 F2]] [g [G1 G2]] J] Fr. pose proof Fr as Fr'. rewrite (bm_fresh_true eqa eqb Ra Rb) in Fr'.
  unfold tw_link. constructor; cbn [fst snd].
  - exists (put eqa f a b). split; [apply (holds_insert eqa feeda hf Ha); exact F1|].
    intros a' b'. rewrite in_app_iff. cbn [In]. rewrite <- F2. unfold put. destruct (Ra a' a) as [->|Ne].
    + split; [intros Q; injection Q as ->; tauto|]. intros [Q|[Q|[]]]; [|congruence].
      apply F2 in Q. destruct (Fr' _ _ Q). congruence.
    + split; [tauto|]. intros [Q|[Q|[]]]; [exact Q|congruence].
  - exists (put eqb g b a). split; [apply (holds_insert eqb feedb hf Hb); exact G1|].
    intros a' b'. rewrite in_app_iff. cbn [In]. rewrite <- G2. unfold put. destruct (Rb b' b) as [->|Ne].
    + split; [intros Q; injection Q as ->; tauto|]. intros [Q|[Q|[]]]; [|congruence].
      apply G2 in Q. destruct (Fr' _ _ Q). congruence.
    + split; [tauto|]. intros [Q|[Q|[]]]; [exact Q|congruence].
  - apply (bij_snoc eqa eqb Ra Rb); [exact J|exact Fr].
Qed.
Lemma filter2 (m : list (A * B)) a b :
  filter (fun p => negb (eqb b (snd p))) (filter (fun p => negb (eqa a (fst p))) m) =
  filter (fun p => negb (bm_touches eqa eqb a b p)) m.
Proof using.
  clear. induction m as [|[x y] m IH]; cbn [filter]; [reflexivity|]. unfold bm_touches at 1. cbn [fst snd].
  destruct (eqa a x); cbn [negb orb]; [exact IH|]. cbn [filter snd]. rewrite IH. destruct (eqb b y); reflexivity.
Qed.
Lemma fresh_filter (m : list (A * B)) a b :
  bm_fresh eqa eqb a b (filter (fun p => negb (bm_touches eqa eqb a b p)) m) = true.
Proof using.
  clear. unfold bm_fresh. apply negb_true_iff. apply not_true_iff_false. intros Q. apply existsb_exists in Q.
  destruct Q as [p [Q1 Q2]]. apply filter_In in Q1. rewrite Q2 in Q1. destruct Q1; discriminate.
Qed.
Lemma fresh_iff (m : list (A * B)) a b :
  bm_fresh eqa eqb a b m = match bm_left eqa a m, bm_right eqb b m with None, None => true | _, _ => false end.
Proof using.
  clear. unfold bm_fresh, bm_left, bm_right. induction m as [|[x y] m IH]; cbn [existsb find fst snd]; [reflexivity|].
  unfold bm_touches at 1. cbn [fst snd]. destruct (eqa a x), (eqb b y); cbn [orb negb option_map]; try reflexivity.
  - destruct (find (fun p => eqa a (fst p)) m); reflexivity.
  - exact IH.
Qed.
Lemma right_filter_left (m : list (A * B)) a b : bm_left eqa a m = None ->
  bm_right eqb b (filter (fun p => negb (eqa a (fst p))) m) = bm_right eqb b m.
Proof using.
  clear. intros E. f_equal. unfold bm_left in E. induction m as [|[x y] m IH]; cbn [filter find fst snd] in *; [reflexivity|].
  destruct (eqa a x); [discriminate|]. cbn [negb]. cbn [find]. rewrite IH by exact E. reflexivity.
Qed.
Lemma bholds_insert t m a b : bholds t m ->
  fst (tw_insert eqa eqb feeda feedb hf t a b) = bm_fresh eqa eqb a b m /\
  bholds (snd (tw_insert eqa eqb feeda feedb hf t a b)) (bm_insert eqa eqb a b m).
Proof using Ha Hb.
  intros H. pose proof (bholds_remove_left t m a H) as H1. pose proof (bholds_remove_right _ _ b H1) as H2.
  unfold tw_insert. cbn [fst snd]. split.
  - rewrite (bholds_left _ _ _ H), (bholds_right _ _ _ H1), fresh_iff.
    destruct (bm_left eqa a m) as [b'|] eqn:E; [reflexivity|]. rewrite right_filter_left by exact E. reflexivity.
  - unfold bm_insert. rewrite filter2 in H2. apply bholds_link; [exact H2|apply fresh_filter].
Qed.
Lemma bholds_insert_new t m a b : bholds t m ->
  fst (tw_insert_new eqa eqb feeda feedb hf t a b) = bm_fresh eqa eqb a b m /\
  bholds (snd (tw_insert_new eqa eqb feeda feedb hf t a b)) (if bm_fresh eqa eqb a b m then m ++ [(a, b)] else m).
Proof using Ha Hb.
  intros H. unfold tw_insert_new. rewrite (bholds_left _ _ _ H), (bholds_right _ _ _ H).
  pose proof (fresh_iff m a b) as E. destruct (bm_left eqa a m), (bm_right eqb b m); rewrite E; cbn [fst snd];
    (split; [reflexivity|]); try exact H. apply bholds_link; [exact H|exact E].
Qed.
Lemma bholds_new n n' : bholds (tw_new n n') [].
Proof using.
  constructor; cbn [tw_new fst snd].
  - exists (fun _ => None). split; [apply holds_new|]. intros a b. cbn [In]. split; [discriminate|tauto].
  - exists (fun _ => None). split; [apply holds_new|]. intros a b. cbn [In]. split; [discriminate|tauto].
  - apply bij_nil.
Qed.
End Bimaps.

(** The calls the (de)serializer makes on its two-way maps, on the tables and on the plain
    list of pairs that the rest of the model uses. *)
Inductive bop {A B : Type} : Type := BInsert (a : A) (b : B) | BInsertNew (a : A) (b : B) | BLeft (a : A) | BRight (b : B).
Inductive bret {A B : Type} : Type := BFlag (f : bool) | BGotLeft (b : option B) | BGotRight (a : option A).
Fixpoint on_tables (ka kb : keykind) (hf : list word -> nat) (t : two_way (A := key ka) (B := key kb))
    (l : list (bop (A := key ka) (B := key kb))) : list (bret (A := key ka) (B := key kb)) :=
  match l with
  | [] => []
  | BInsert a b :: r => let (f, t') := tw_insert (key_eqb ka) (key_eqb kb) (key_hash ka) (key_hash kb) hf t a b in
                        BFlag f :: on_tables ka kb hf t' r
  | BInsertNew a b :: r => let (f, t') := tw_insert_new (key_eqb ka) (key_eqb kb) (key_hash ka) (key_hash kb) hf t a b in
                        BFlag f :: on_tables ka kb hf t' r
  | BLeft a :: r => BGotLeft (tw_left (key_eqb ka) (key_hash ka) hf t a) :: on_tables ka kb hf t r
  | BRight b :: r => BGotRight (tw_right (key_eqb kb) (key_hash kb) hf t b) :: on_tables ka kb hf t r
  end.
Fixpoint on_pairs (ka kb : keykind) (m : list (key ka * key kb))
    (l : list (bop (A := key ka) (B := key kb))) : list (bret (A := key ka) (B := key kb)) :=
  match l with
  | [] => []
  | BInsert a b :: r => BFlag (bm_fresh (key_eqb ka) (key_eqb kb) a b m) :: on_pairs ka kb (bm_insert (key_eqb ka) (key_eqb kb) a b m) r
  | BInsertNew a b :: r =>
      let f := bm_fresh (key_eqb ka) (key_eqb kb) a b m in BFlag f :: on_pairs ka kb (if f then m ++ [(a, b)] else m) r
  | BLeft a :: r => BGotLeft (bm_left (key_eqb ka) a m) :: on_pairs ka kb m r
  | BRight b :: r => BGotRight (bm_right (key_eqb kb) b m) :: on_pairs ka kb m r
  end.

(** Whatever the hash function, a two-way hash map answers as the plain list of pairs. *)
Theorem C59_two_way_maps_are_lists_of_pairs :
  forall (ka kb : keykind) (hf : list word -> nat) n n' ops,
    on_tables ka kb hf (tw_new n n') ops = on_pairs ka kb [] ops.
Proof.
  intros ka kb hf n n' ops.
  pose proof (bholds_new (key_hash ka) (key_hash kb) hf n n') as H.
  revert H. generalize (@tw_new (key ka) (key kb) n n'). generalize (@nil (key ka * key kb)).
  induction ops as [|o ops IH]; intros m t H; cbn [on_tables on_pairs]; [reflexivity|].
  pose proof (key_eqb_eq ka) as Ea. pose proof (key_eqb_eq kb) as Eb. destruct o as [a b|a b|a|b].
  - destruct (bholds_insert (key_eqb ka) (key_eqb kb) (key_hash ka) (key_hash kb) hf Ea Eb t m a b H) as [Q1 Q2].
    destruct (tw_insert (key_eqb ka) (key_eqb kb) (key_hash ka) (key_hash kb) hf t a b) as [f t']. cbn [fst snd] in Q1, Q2.
    rewrite Q1. f_equal. apply IH. exact Q2.
  - destruct (bholds_insert_new (key_eqb ka) (key_eqb kb) (key_hash ka) (key_hash kb) hf Ea Eb t m a b H) as [Q1 Q2].
    destruct (tw_insert_new (key_eqb ka) (key_eqb kb) (key_hash ka) (key_hash kb) hf t a b) as [f t']. cbn [fst snd] in Q1, Q2.
    cbv zeta. rewrite Q1. f_equal. apply IH. exact Q2.
  - f_equal; [f_equal; apply (bholds_left (key_eqb ka) (key_hash ka) (key_hash kb) hf Ea); exact H|]. apply IH. exact H.
  - f_equal; [f_equal; apply (bholds_right (key_eqb kb) (key_hash ka) (key_hash kb) hf Eb); exact H|]. apply IH. exact H.
Qed.
Print Assumptions C59_two_way_maps_are_lists_of_pairs.

(** The serializer's map from object handles to positions: a handle given a second
    position, and a position given to a second handle. *)
Example C59_two_way_met :
  on_tables KHandle KPos (fun _ => 3) (tw_new 1 0)
    [BInsert (mkIndex 0 0%N) 5; BInsert (mkIndex 1 0%N) 6; BInsert (mkIndex 0 0%N) 6; BLeft (mkIndex 0 0%N);
     BLeft (mkIndex 1 0%N); BRight 5; BInsertNew (mkIndex 1 0%N) 6; BInsertNew (mkIndex 1 0%N) 5; BRight 5] =
  [BFlag true; BFlag true; BFlag false; BGotLeft (Some 6); BGotLeft None; BGotRight None; BFlag false; BFlag true;
   BGotRight (Some (mkIndex 1 0%N))].
Proof. reflexivity. Qed.
