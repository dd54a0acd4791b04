(** C51, C52: the bytes of a saved baseline. *)
From Verif Require Import BaseProofs PropertiesTags PropertiesBaseline SerProofs PropertiesSer PropertiesRound.
From Verif Require Import WireSerial Wire WireRead WireSchema WireRefine WireMono WireSize WireMass WireMany.
From Verif Require Text.
Import Coq.Strings.String.StringSyntax.
Open Scope string_scope.
Open Scope list_scope.
Open Scope nat_scope.

(** ** Specification

    A file is a list of bytes.  [load] is what the deserializer does with it: [None] is an
    error, [Some None] an access outside the file, [Some (Some fb)] the tables that were
    read.  [tables] counts them; [held] says that every number fits its width and every text
    is UTF-8 (WireRead.v).  [save] writes the selection [l] of a baseline, [saved_tables]
    (WireSize.v) counts: 1, and for each contract 3, and for each object 2 and 3 per field. *)
Definition file (bytes : list Z) : Prop := Forall (fun z => 0 <= z < 256)%Z bytes.
(** The values of the states, the ids and names are such as a Rust program can hold. *)
Definition rust_values (b : baseline) (l : list (contract_inst * list index)) : Prop :=
  (forall t h v, st_at b t h = Some v -> typed v) /\ Forall (fun p => writable (ci_ty (fst p))) l.

(** ** C51 *)

(** Whatever the bytes: an error, or everything the reader looks at lies in the file. *)
Theorem C51_no_file_is_read_outside :
  forall bytes, file bytes -> load bytes = None \/ exists fb, load bytes = Some (Some fb).
Proof.
  intros bytes B. unfold load. destruct (verify bytes) as [s|] eqn:V; [|left; reflexivity].
  destruct (verify_ok bytes B s V) as (f & R & _). right. exists f. rewrite R. reflexivity.
Qed.
Print Assumptions C51_no_file_is_read_outside.

(** Although a file may refer to the same bytes any number of times, what it unfolds to is
    bounded: the texts and the lists of the tables together have at most 2^31 bytes and
    entries ([amount], WireMass.v). *)
Theorem C51_what_is_loaded_is_bounded :
  forall bytes fb, file bytes -> load bytes = Some (Some fb) -> (amount fb <= 2 ^ 31)%Z.
Proof.
  intros bytes fb B L. unfold load in L. destruct (verify bytes) as [s|] eqn:V; [|discriminate L].
  destruct (read_root bytes) as [f|] eqn:R; [|discriminate L]. assert (f = fb) by congruence. subst f.
  destruct (verify_amount bytes B s fb V R) as [A1 A2]. unfold max_size in A2. lia.
Qed.
Print Assumptions C51_what_is_loaded_is_bounded.
(** What is read from an accepted file: no more than a million tables, numbers that fit,
    text that is UTF-8. *)
Theorem C51_accepted_files_hold_proper_values :
  forall bytes fb, file bytes -> load bytes = Some (Some fb) -> (tables fb <= 1000000)%Z /\ held fb.
Proof.
  intros bytes fb B L. unfold load in L. destruct (verify bytes) as [s|] eqn:V; [|discriminate L].
  destruct (verify_ok bytes B s V) as (f & R & _ & H & T). assert (f = fb) by congruence. subst f. split; [exact T|exact H].
Qed.
Print Assumptions C51_accepted_files_hold_proper_values.

Theorem C51_trailing_bytes_change_nothing :
  forall bytes more r, load bytes = Some r -> r <> None -> load (bytes ++ more) = Some r.
Proof.
  intros bytes x r L NR. unfold load in *. destruct (verify bytes) as [s|] eqn:V; [|discriminate L].
  rewrite (verify_keeps _ x _ V). destruct r as [f|]; [|contradiction]. rewrite (root_keeps bytes x f); [reflexivity|congruence].
Qed.
Print Assumptions C51_trailing_bytes_change_nothing.

(** A file that was cut off at any point gives an error or the whole contents: never part of
    them, never other ones. *)
Theorem C51_torn_files_are_rejected_or_complete :
  forall bytes fb n, file bytes -> load bytes = Some (Some fb) ->
    load (firstn n bytes) = None \/ load (firstn n bytes) = Some (Some fb).
Proof.
  intros bytes fb n B L.
  assert (BN : file (firstn n bytes)) by (apply forall_firstn; exact B).
  destruct (C51_no_file_is_read_outside _ BN) as [N|[f N]]; [left; exact N|]. right.
  assert (X : load (firstn n bytes ++ skipn n bytes) = Some (Some f)) by (apply C51_trailing_bytes_change_nothing; [exact N|discriminate]).
  rewrite firstn_skipn in X. rewrite N. congruence.
Qed.
Print Assumptions C51_torn_files_are_rejected_or_complete.

(** ** C52 *)

(** A selection that can be serialized gives a file; it begins with the offset of the root
    and "TPF1", and its tables are those that were serialized. *)
Theorem C52_saved_bytes_are_the_tables :
  forall b l ord sr fb, rust_values b l ->
    serialize_all b ser_new l = (Ok tt, sr) -> ser_finish b sr (fst (ord sr)) (snd (ord sr)) = Ok (Some fb) ->
    exists bytes, save b l ord = Ok bytes /\ file bytes /\
      ((Z.of_nat (length bytes) < 2 ^ 31)%Z ->
         firstn 4 (skipn 4 bytes) = map (fun a => Z.of_N (Coq.Strings.Ascii.N_of_ascii a)) (Coq.Strings.String.list_ascii_of_string "TPF1") /\
         read_root bytes = Some fb).
Proof.
  intros b l ord sr fb [TY WR] SA SF. destruct (save_refines b TY l ord sr fb WR SA SF) as (bytes & S & K).
  exists bytes. split; [exact S|]. split; [exact (saved_bytes _ _ _ _ S)|]. intros SM. destruct (K SM) as (P & R & _). split; [exact P|exact R].
Qed.
Print Assumptions C52_saved_bytes_are_the_tables.

(** A file of at most a million tables and 10^9 bytes is accepted. *)
Theorem C52_saved_files_are_accepted :
  forall b l ord sr fb bytes, rust_values b l ->
    serialize_all b ser_new l = (Ok tt, sr) -> ser_finish b sr (fst (ord sr)) (snd (ord sr)) = Ok (Some fb) ->
    save b l ord = Ok bytes -> (Z.of_nat (length bytes) <= 1000000000)%Z -> (saved_tables l <= 1000000)%Z ->
    load bytes = Some (Some fb).
Proof.
  intros b l ord sr fb bytes [TY WR] SA SF S SM T. destruct (save_refines b TY l ord sr fb WR SA SF) as (bytes' & S' & K).
  assert (bytes' = bytes) by congruence. subst bytes'. destruct K as (_ & R & A); [change (2 ^ 31)%Z with 2147483648%Z; lia|].
  rewrite <- (saved_count b l _ _ sr fb SA SF) in T.
  pose proof (weight_mass fb) as W. pose proof (saved_mass b l ord sr fb bytes S WR TY SA SF) as M.
  destruct A as [s V]; [exact T|unfold max_size; change (2 ^ 31)%Z with 2147483648%Z; lia|]. unfold load. rewrite V, R. reflexivity.
Qed.
Print Assumptions C52_saved_files_are_accepted.

(** Refuted: not every file that was saved can be loaded.  Beyond a million tables it
    cannot. *)
Theorem C52_more_than_a_million_tables_cannot_be_loaded :
  forall b l ord sr fb bytes, rust_values b l ->
    serialize_all b ser_new l = (Ok tt, sr) -> ser_finish b sr (fst (ord sr)) (snd (ord sr)) = Ok (Some fb) ->
    save b l ord = Ok bytes -> (Z.of_nat (length bytes) < 2 ^ 31)%Z -> (1000000 < saved_tables l)%Z ->
    load bytes = None.
Proof.
  intros b l ord sr fb bytes [TY WR] SA SF S SM T. destruct (save_refines b TY l ord sr fb WR SA SF) as (bytes' & S' & K).
  assert (bytes' = bytes) by congruence. subst bytes'. destruct (K SM) as (_ & R & _).
  rewrite <- (saved_count b l _ _ sr fb SA SF) in T. unfold load. destruct (verify bytes) as [s|] eqn:V; [|reflexivity].
  destruct (verify_ok bytes (saved_bytes _ _ _ _ S) s V) as (f & R' & _ & _ & T'). assert (f = fb) by congruence. subst f.
  unfold max_tables in T'. lia.
Qed.
Print Assumptions C52_more_than_a_million_tables_cannot_be_loaded.

(** C25 with the bytes between: save, load, deserialize. *)
Theorem C52_save_and_load_restore_partial :
  forall k ops rs b l,
    crun (baseline_new k) ops = (rs, b) -> existsb is_panic rs = false -> all_disciplined rs_empty ops rs ->
    selection b (rfinal rs_empty ops rs) l -> intact b l -> plain l -> fits_format l -> closed b l ->
    (forall c ord, In (c, ord) l ->
       layout_ok (ci_ty c) /\ ct_chans (ci_ty c) = [] /\ ct_id (ci_ty c) <> reserved_id) ->
    rust_values b l -> (saved_tables l <= 1000000)%Z ->
    forall ord, (forall sr, Permutation (fst (ord sr)) (hm_cstates sr) /\ Permutation (snd (ord sr)) (hm_ostates sr)) ->
    exists bytes, save b l ord = Ok bytes /\
    ((Z.of_nat (length bytes) <= 1000000000)%Z ->
     exists fb, load bytes = Some (Some fb) /\
     forall k' Cs, Permutation Cs (map (fun p => ci_ty (fst p)) l) ->
     exists d0 cs' d1, builder_new fb k' = Ok d0 /\ register_all d0 Cs = (Ok cs', d1) /\ map ci_ty cs' = Cs /\
     forall ds, Permutation ds cs' ->
     exists d2, deserialize_all (deser_new d1) ds = (Ok tt, d2) /\
     forall r, finishes d2 r ->
     exists b' obj, r = Ok b' /\ b_kind b' = k' /\ copy_of b l b' cs' obj).
Proof.
  intros k ops rs b l Hc Hp Hd Hsel Hint Hpl Hfit Hclo Hnice Hv HT ord HO.
  destruct (C25_round_trip_partial k ops rs b l Hc Hp Hd Hsel Hint Hpl Hfit Hclo Hnice) as (sr & SA & H).
  destruct (HO sr) as [O1 O2]. destruct (H _ _ O1 O2) as (fb & SF & REST).
  destruct (C52_saved_bytes_are_the_tables b l ord sr fb Hv SA SF) as (bytes & S & _).
  exists bytes. split; [exact S|]. intros SM. exists fb.
  split; [exact (C52_saved_files_are_accepted b l ord sr fb bytes Hv SA SF S SM HT)|exact REST].
Qed.
Print Assumptions C52_save_and_load_restore_partial.

(** *** The history of C25, with its file *)
Definition wiOrd (s : ser) : list (index * nat) * list (index * nat) := (hm_cstates s, hm_ostates s).
Definition wiFile : list Z := match save rtB rtL wiOrd with Ok l => l | _ => [] end.
Example wi_saved : save rtB rtL wiOrd = Ok wiFile /\ saved_tables rtL = 43%Z /\ load wiFile = Some (Some rtFb).
Proof. vm_compute. auto. Qed.

Definition wi_small (v : dynprop) : bool :=
  match v with
  | PPrim (VU8 x) => (0 <=? x)%Z && (x <? 256)%Z
  | PPrim (VF32 x) => (0 <=? x)%Z && (x <? 4294967296)%Z
  | PPrim (VString s) => Text.valid_utf8 (string_bytes s)
  | PPrim (VObjectHandle _) | PPrim (VContractDataHandle _) => true
  | _ => false
  end.
Lemma wi_small_typed : forall v, wi_small v = true -> typed v.
Proof.
  intros [p|p] H; cbn [wi_small] in H; [|discriminate H].
  destruct p; try discriminate H; cbn [typed]; try exact I; try exact H; apply andb_prop in H; destruct H as [H1 H2];
    apply Z.leb_le in H1; apply Z.ltb_lt in H2; change (2 ^ 8)%Z with 256%Z; change (2 ^ 32)%Z with 4294967296%Z; lia.
Qed.
Lemma arena_all : forall (a : Arena.arena dynprop),
  forallb (fun e => match e with Occ _ v => wi_small v | _ => true end) (items a) = true ->
  forall h v, Arena.get a h = Some v -> typed v.
Proof.
  intros a F h v G. unfold Arena.get in G. destruct (nth_error (items a) (ix h)) as [e|] eqn:E; [|discriminate G].
  destruct e as [nx|g u]; [discriminate G|]. destruct (N.eqb g (gen h)); [|discriminate G]. assert (u = v) by congruence. subst u.
  rewrite forallb_forall in F. apply wi_small_typed. exact (F _ (nth_error_In _ _ E)).
Qed.
Definition wi_prims : list prim :=
  [TU8; TU16; TU32; TU64; TI8; TI16; TI32; TI64; TBool; TF32; TF64; TString; TObjectHandle; TContractDataHandle].
Lemma wi_typed : forall b,
  forallb (fun t => match b_states b t with
                    | Some a => forallb (fun e => match e with Occ _ v => wi_small v | _ => true end) (items a)
                    | None => true
                    end) (map TPrim wi_prims ++ map TVec wi_prims) = true ->
  forall t h v, st_at b t h = Some v -> typed v.
Proof.
  intros b F t h v H. rewrite forallb_forall in F. specialize (F t).
  assert (IN : In t (map TPrim wi_prims ++ map TVec wi_prims)).
  { apply in_or_app. destruct t as [p|p]; [right|left]; apply in_map; destruct p; cbn; tauto. }
  specialize (F IN). unfold st_at, state_get, tm_get in H.
  destruct (b_states b t) as [a|]; [|discriminate H].
  destruct (Arena.get a h) as [u|] eqn:G; [|discriminate H]. cbn [ok_or] in H. assert (u = v) by congruence. subst u.
  revert G. apply arena_all. exact F.
Qed.
Example wi_values : rust_values rtB rtL.
Proof.
  split.
  - apply wi_typed. vm_compute. reflexivity.
  - repeat constructor; vm_compute; reflexivity.
Qed.
(** The theorem applies, and what it gives is the file computed above. *)
Example wi_applies : exists bytes, save rtB rtL wiOrd = Ok bytes /\
  ((Z.of_nat (length bytes) <= 1000000000)%Z -> exists fb, load bytes = Some (Some fb) /\ fb = rtFb).
Proof.
  destruct rt_history as (H1 & H2 & H3). destruct rt_hypotheses as (G1 & G2 & G3 & G4 & G5 & G6).
  destruct (C52_save_and_load_restore_partial _ _ _ _ _ H1 H2 H3 G1 G2 G3 G4 G5 G6 wi_values) with (ord := wiOrd) as (bytes & S & K).
  - vm_compute. discriminate.
  - intros sr. split; apply Permutation_refl.
  - exists bytes. split; [exact S|]. intros L. destruct (K L) as (fb & LD & _). exists fb. split; [exact LD|].
    destruct wi_saved as (S' & _ & L'). congruence.
Qed.
Example wi_torn : load (firstn (length wiFile - 4) wiFile) = None /\ load (wiFile ++ [1; 2; 3]%Z) = Some (Some rtFb).
Proof. vm_compute. auto. Qed.

(** Refuted: the deserializer does not check that the file is one of this format: any four
    bytes in the place of "TPF1" will do. *)
Theorem C51_file_identifier_is_not_checked_refuted :
  forall w x y z : Z, exists bytes fb, firstn 4 (skipn 4 bytes) = [w; x; y; z] /\ load bytes = Some (Some fb) /\ fb = rtFb.
Proof.
  intros w x y z. exists (firstn 4 wiFile ++ [w; x; y; z] ++ skipn 8 wiFile), rtFb. vm_compute. auto.
Qed.
Print Assumptions C51_file_identifier_is_not_checked_refuted.

(** Refuted: a file that was saved without an error need not be loadable.  The baseline has
    one contract of five bytes and one object; its contract is serialized 60000 times.  (The
    same numbers: 60000 contracts with one object each.)  The file has 1200001 tables. *)
Lemma wm_values : forall n, rust_values wmB (wmL n).
Proof.
  intros n. split.
  - apply wi_typed. vm_compute. reflexivity.
  - apply Forall_forall. intros p IN. apply repeat_spec in IN. subst p. repeat split; try (vm_compute; reflexivity). repeat constructor; vm_compute; reflexivity.
Qed.
Theorem C52_a_saved_baseline_may_be_unreadable_refuted :
  exists k ops rs b l ord bytes,
    crun (baseline_new k) ops = (rs, b) /\ existsb is_panic rs = false /\
    (forall c os, In (c, os) l -> exists cd, con_at b (ci_handle c) = Some cd /\ Permutation os (cd_objects cd)) /\
    rust_values b l /\ (forall sr, ord sr = (hm_cstates sr, hm_ostates sr)) /\
    save b l ord = Ok bytes /\ (Z.of_nat (length bytes) < 2 ^ 31)%Z /\ load bytes = None.
Proof.
  destruct wm_saved as (sr & fb & SA & SF & M).
  assert (T : saved_tables (wmL wmN) = 1200001%Z) by (rewrite wm_tables; unfold wmN; rewrite N_nat_Z; reflexivity).
  destruct (C52_saved_bytes_are_the_tables _ _ wmOrd _ _ (wm_values wmN) SA SF) as (bytes & S & _).
  assert (SZ : (Z.of_nat (length bytes) < 2 ^ 31)%Z).
  { destruct (wm_values wmN) as [TY WR]. pose proof (saved_size wmB TY _ _ _ _ _ S WR SA SF) as Z0. rewrite M, T in Z0.
    change (2 ^ 31)%Z with 2147483648%Z in *. lia. }
  exists KMain, wmOps, (fst (crun (baseline_new KMain) wmOps)), wmB, (wmL wmN), wmOrd, bytes.
  split; [apply surjective_pairing|]. split; [vm_compute; reflexivity|].
  split; [|split; [apply wm_values|split; [reflexivity|split; [exact S|split; [exact SZ|]]]]].
  - intros c os IN. apply repeat_spec in IN. unfold wmE in IN. assert (c = wmI) by congruence. assert (os = [rtI 0]) by congruence. subst.
    eexists. split; [vm_compute; reflexivity|]. apply Permutation_refl.
  - eapply C52_more_than_a_million_tables_cannot_be_loaded; [apply wm_values|exact SA|exact SF|exact S|exact SZ|rewrite T; reflexivity].
Qed.
Print Assumptions C52_a_saved_baseline_may_be_unreadable_refuted.
