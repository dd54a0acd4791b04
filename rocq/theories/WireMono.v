(** Bytes after the end: a file that is accepted is accepted, with the same contents, when
    more bytes follow. *)
From Verif Require Import Wire.
Open Scope nat_scope.

(** ** Reading *)
Definition keeps {A : Type} (d : list Z -> nat -> option A) : Prop := forall b x p v, d b p = Some v -> d (b ++ x) p = Some v.

Lemma get_keeps : forall n, keeps (get n).
Proof.
  intros n b x p v H. unfold get in *. destruct (Nat.leb_spec (p + n) (length b)) as [L|]; [|discriminate H].
  rewrite app_length. replace (p + n <=? length b + length x) with true by (symmetry; apply Nat.leb_le; lia).
  rewrite skipn_app, firstn_app, skipn_length. replace (n - (length b - p)) with 0 by lia. cbn [firstn]. rewrite app_nil_r. exact H.
Qed.
Ltac kept H L := match type of H with (_ <- ?e; _) = _ =>
  let K := fresh "K" in destruct e eqn:K; [|discriminate H]; try rewrite (L _ _ _ _ K) end.

Lemma vtable_keeps : keeps vtable.
Proof. intros b x p v H. unfold vtable in *. kept H (get_keeps 4). exact H. Qed.
Lemma follow_keeps : keeps follow.
Proof. intros b x p v H. unfold follow in *. kept H (get_keeps 4). exact H. Qed.
Lemma slot_keeps : forall i, keeps (fun b t => slot b t i).
Proof.
  intros i b x p v H. unfold slot in *. kept H vtable_keeps. kept H (get_keeps 2).
  destruct (_ <=? _)%Z; [|exact H]. kept H (get_keeps 2). exact H.
Qed.
Lemma scalar_keeps : forall n i, keeps (fun b t => scalar n b t i).
Proof.
  intros n i b x p v H. unfold scalar in *. kept H (slot_keeps i). destruct o; [|exact H]. apply get_keeps. exact H.
Qed.
Lemma pointer_keeps : forall A (d : list Z -> nat -> option A) i, keeps d -> keeps (fun b t => pointer d b t i).
Proof.
  intros A d i D b x p v H. unfold pointer in *. kept H (slot_keeps i). destruct o; [|exact H].
  kept H follow_keeps. kept H D. exact H.
Qed.
Lemma text_keeps : keeps text.
Proof.
  intros b x p v H. unfold text in *. kept H (get_keeps 4).
  destruct (Nat.leb_spec (p + 4 + Z.to_nat z) (length b)) as [L|]; [|discriminate H].
  rewrite app_length. replace (p + 4 + Z.to_nat z <=? length b + length x) with true by (symmetry; apply Nat.leb_le; lia).
  rewrite skipn_app, firstn_app, skipn_length. replace (Z.to_nat z - (length b - (p + 4))) with 0 by lia. cbn [firstn]. rewrite app_nil_r. exact H.
Qed.
Lemma all_keeps : forall A B (f g : A -> option B) l v, (forall k w, f k = Some w -> g k = Some w) ->
  all (map f l) = Some v -> all (map g l) = Some v.
Proof.
  intros A B f g l. induction l as [|k l IH]; intros v FG H; cbn [map all] in *; [exact H|].
  destruct (f k) as [w|] eqn:F; [|discriminate H]. rewrite (FG _ _ F).
  destruct (all (map f l)) as [r|]; [|discriminate H]. rewrite (IH r FG eq_refl). exact H.
Qed.
Lemma vector_keeps : forall A (d : list Z -> nat -> option A), keeps d -> keeps (vector d).
Proof.
  intros A d D b x p v H. unfold vector in *. kept H (get_keeps 4). eapply all_keeps; [|exact H].
  cbv beta. intros k w E. kept E follow_keeps. apply D. exact E.
Qed.
Lemma kinds_keeps : keeps kinds_at.
Proof.
  intros b x p v H. unfold kinds_at in *. kept H (get_keeps 4). eapply all_keeps; [|exact H].
  cbv beta. intros k w E. kept E (get_keeps 1). exact E.
Qed.
Lemma cid_keeps : keeps read_cid.
Proof.
  intros b x p v H. unfold read_cid in *. kept H (pointer_keeps _ _ 0 text_keeps).
  kept H (scalar_keeps 2 1). kept H (scalar_keeps 2 2). kept H (scalar_keeps 2 3). exact H.
Qed.
Lemma cstates_keeps : keeps read_cstates.
Proof.
  intros b x p v H. unfold read_cstates in *. kept H (pointer_keeps _ _ 0 (vector_keeps _ _ text_keeps)).
  kept H (pointer_keeps _ _ 1 kinds_keeps). exact H.
Qed.
Lemma contract_keeps : keeps read_contract.
Proof.
  intros b x p v H. unfold read_contract in *. kept H (pointer_keeps _ _ 0 cid_keeps). kept H (pointer_keeps _ _ 1 cstates_keeps). exact H.
Qed.
Lemma idx_keeps : forall n, keeps (read_idx n).
Proof. intros n b x p v H. unfold read_idx in *. kept H (scalar_keeps n 0). exact H. Qed.
Lemma num_keeps : forall n, keeps (num n).
Proof. intros n. exact (scalar_keeps n 0). Qed.
Lemma inum_keeps : forall n, keeps (inum n).
Proof. intros n b x p v H. unfold inum in *. kept H (scalar_keeps n 0). exact H. Qed.
Lemma fb_text_keeps : keeps fb_text.
Proof. exact (pointer_keeps _ _ 0 text_keeps). Qed.
Lemma object_keeps : keeps read_object.
Proof.
  intros b x p v H. unfold read_object in *. kept H (pointer_keeps _ _ 0 (idx_keeps 2)).
  kept H (pointer_keeps _ _ 1 (vector_keeps _ _ (idx_keeps 4))). exact H.
Qed.
Lemma union_keeps : forall A (d : list Z -> nat -> option A), keeps d -> keeps (union_value d).
Proof. intros A d D b x p v H. unfold union_value in *. kept H (pointer_keeps _ _ 1 D). exact H. Qed.
Lemma state_keeps : keeps read_state.
Proof.
  intros b x p v H. unfold read_state in *. kept H (scalar_keeps 1 0).
  destruct z as [|z|z]; do 4 (try (destruct z as [z|z|]));
    lazymatch type of H with
    | (_ <- union_value (num ?n) _ _; _) = _ => kept H (union_keeps _ _ (num_keeps n)); exact H
    | (_ <- union_value (inum ?n) _ _; _) = _ => kept H (union_keeps _ _ (inum_keeps n)); exact H
    | (_ <- union_value (read_idx ?n) _ _; _) = _ => kept H (union_keeps _ _ (idx_keeps n)); exact H
    | (_ <- union_value fb_text _ _; _) = _ => kept H (union_keeps _ _ fb_text_keeps); exact H
    | _ => exact H
    end.
Qed.
Lemma baseline_keeps : keeps read_baseline.
Proof.
  intros b x p v H. unfold read_baseline in *. kept H (pointer_keeps _ _ 0 (vector_keeps _ _ contract_keeps)).
  kept H (pointer_keeps _ _ 1 (vector_keeps _ _ state_keeps)). kept H (pointer_keeps _ _ 2 (vector_keeps _ _ object_keeps)). exact H.
Qed.
Lemma root_keeps : forall b x f, read_root b = Some f -> read_root (b ++ x) = Some f.
Proof. intros b x f H. unfold read_root in *. kept H follow_keeps. apply baseline_keeps. exact H. Qed.

(** ** Checking *)
Definition checks (run : list Z -> nat -> vstate -> option vstate) : Prop :=
  forall b x p s s', run b p s = Some s' -> run (b ++ x) p s = Some s'.
Ltac checked H L := match type of H with (_ <- ?e; _) = _ =>
  let K := fresh "K" in destruct e eqn:K; [|discriminate H]; try rewrite (L _ _ _ _ _ K) end.

Lemma range_checks : forall n, checks (fun b => ver_range b n).
Proof.
  intros n b x p s s' H. unfold ver_range in *. destruct (Nat.leb_spec (p + n) (length b)) as [L|]; [|discriminate H].
  rewrite app_length. replace (p + n <=? length b + length x) with true by (symmetry; apply Nat.leb_le; lia). exact H.
Qed.
Lemma in_checks : forall n, checks (fun b => ver_in b n).
Proof. intros n b x p s s' H. unfold ver_in in *. destruct (Nat.eqb _ _); [|discriminate H]. apply range_checks. exact H. Qed.
Lemma open_keeps : forall b x t s r, ver_open b t s = Some r -> ver_open (b ++ x) t s = Some r.
Proof.
  intros b x t s r H. unfold ver_open in *. checked H (in_checks 4). kept H vtable_keeps.
  destruct (Nat.ltb_spec n (length b)) as [L|]; [|discriminate H].
  rewrite app_length. replace (n <? length b + length x) with true by (symmetry; apply Nat.ltb_lt; lia).
  checked H (in_checks 2). kept H (get_keeps 2). destruct (Nat.eqb _ _); [|discriminate H]. checked H (range_checks (Z.to_nat z)). exact H.
Qed.
Lemma ver_slot_keeps : forall b x vt len t i s r, ver_slot b vt len t i s = Some r -> ver_slot (b ++ x) vt len t i s = Some r.
Proof.
  intros b x vt len t i s r H. unfold ver_slot in *. destruct (_ <? _); [|exact H]. checked H (in_checks 2). kept H (get_keeps 2). exact H.
Qed.
Lemma field_checks : forall run vt len i, checks run -> checks (fun b t => ver_field b (run b) vt len t i).
Proof.
  intros run vt len i R b x t s s' H. unfold ver_field in *.
  destruct (ver_slot b vt len t i s) as [r|] eqn:E; [|discriminate H]. rewrite (ver_slot_keeps _ _ _ _ _ _ _ _ E).
  destruct r as [[p|] s1]; [|exact H]. apply R. exact H.
Qed.
Lemma off_checks : forall run, checks run -> checks (fun b => ver_off b (run b)).
Proof. intros run R b x p s s' H. unfold ver_off in *. checked H (in_checks 4). kept H follow_keeps. apply R. exact H. Qed.
Lemma len_keeps : forall size b x p s r, ver_len b size p s = Some r -> ver_len (b ++ x) size p s = Some r.
Proof.
  intros size b x p s r H. unfold ver_len in *. checked H (in_checks 4). kept H (get_keeps 4).
  destruct (Nat.eqb _ _); [|discriminate H]. checked H (range_checks (Z.to_nat z * size)). exact H.
Qed.
Lemma len_fits : forall size b p s n s', ver_len b size p s = Some (n, s') -> p + 4 + n * size <= length b.
Proof.
  intros size b p s n s' H. unfold ver_len in H. kept H (get_keeps 4). kept H (get_keeps 4).
  destruct (Nat.eqb _ _); [|discriminate H]. unfold ver_range in H.
  destruct (Nat.leb_spec (p + 4 + Z.to_nat z * size) (length b)) as [L|]; [|discriminate H].
  destruct (_ <=? max_size)%Z; [|discriminate H]. assert (n = Z.to_nat z) by congruence. subst. exact L.
Qed.
Lemma text_checks : checks ver_text.
Proof.
  intros b x p s s' H. unfold ver_text in *. destruct (ver_len b 1 p s) as [[n s1]|] eqn:E; [|discriminate H].
  rewrite (len_keeps _ _ _ _ _ _ E). apply len_fits in E.
  rewrite skipn_app, firstn_app, skipn_length. replace (n - (length b - (p + 4))) with 0 by lia. cbn [firstn]. rewrite app_nil_r.
  destruct (Text.valid_utf8 _); [|discriminate H].
  destruct (nth_error b (p + 4 + n)) as [z|] eqn:N; [|discriminate H].
  rewrite nth_error_app1 by (apply nth_error_Some; congruence). rewrite N. exact H.
Qed.
Lemma bytes_checks : checks ver_bytes.
Proof. intros b x p s s' H. unfold ver_bytes in *. destruct (ver_len b 1 p s) eqn:E; [|discriminate H]. rewrite (len_keeps _ _ _ _ _ _ E). exact H. Qed.
Lemma each_checks : forall run k, checks run -> checks (fun b => ver_each b (run b) k).
Proof.
  intros run k R. induction k as [|k IH]; intros b x p s s' H; cbn [ver_each] in *; [exact H|].
  checked H (off_checks _ R). apply IH. exact H.
Qed.
Lemma vector_checks : forall run, checks run -> checks (fun b => ver_vector b (run b)).
Proof.
  intros run R b x p s s' H. unfold ver_vector in *. destruct (ver_len b 4 p s) as [[n s1]|] eqn:E; [|discriminate H].
  rewrite (len_keeps _ _ _ _ _ _ E). apply (each_checks run n R). exact H.
Qed.
Ltac opens H := match type of H with (_ <- ver_open ?b ?t ?s; _) = _ =>
  let E := fresh "E" in destruct (ver_open b t s) as [[[vt len] s1]|] eqn:E; [|discriminate H]; rewrite (open_keeps _ _ _ _ _ E) end.
Lemma cid_checks : checks ver_cid.
Proof.
  intros b x p s s' H. unfold ver_cid in *. opens H. checked H (field_checks _ vt len 0 (off_checks _ text_checks)).
  checked H (field_checks _ vt len 1 (in_checks 2)). checked H (field_checks _ vt len 2 (in_checks 2)).
  apply (field_checks _ vt len 3 (in_checks 2)). exact H.
Qed.
Lemma cstates_checks : checks ver_cstates.
Proof.
  intros b x p s s' H. unfold ver_cstates in *. opens H. checked H (field_checks _ vt len 0 (off_checks _ (vector_checks _ text_checks))).
  apply (field_checks _ vt len 1 (off_checks _ bytes_checks)). exact H.
Qed.
Lemma contract_checks : checks ver_contract.
Proof.
  intros b x p s s' H. unfold ver_contract in *. opens H. checked H (field_checks _ vt len 0 (off_checks _ cid_checks)).
  apply (field_checks _ vt len 1 (off_checks _ cstates_checks)). exact H.
Qed.
Lemma num_checks : forall n, checks (fun b => ver_num b n).
Proof. intros n b x p s s' H. unfold ver_num in *. opens H. apply (field_checks _ vt len 0 (in_checks n)). exact H. Qed.
Lemma fb_text_checks : checks ver_fb_text.
Proof. intros b x p s s' H. unfold ver_fb_text in *. opens H. apply (field_checks _ vt len 0 (off_checks _ text_checks)). exact H. Qed.
Lemma object_checks : checks ver_object.
Proof.
  intros b x p s s' H. unfold ver_object in *. opens H. checked H (field_checks _ vt len 0 (off_checks _ (num_checks 2))).
  apply (field_checks _ vt len 1 (off_checks _ (vector_checks _ (num_checks 4)))). exact H.
Qed.
Lemma union_checks : forall tag, checks (fun b => ver_union b tag).
Proof.
  intros tag b x p s s' H. unfold ver_union in *.
  destruct tag as [|tag|tag]; do 4 (try (destruct tag as [tag|tag|]));
    first [exact H|apply (off_checks _ (num_checks _)); exact H|apply (off_checks _ fb_text_checks); exact H].
Qed.
Lemma state_checks : checks ver_state.
Proof.
  intros b x p s s' H. unfold ver_state in *. opens H.
  destruct (ver_slot b vt len p 1 s1) as [[val s2]|] eqn:E1; [|discriminate H]. rewrite (ver_slot_keeps _ _ _ _ _ _ _ _ E1).
  destruct (ver_slot b vt len p 0 s2) as [[key s3]|] eqn:E2; [|discriminate H]. rewrite (ver_slot_keeps _ _ _ _ _ _ _ _ E2).
  destruct key, val; try exact H. checked H (in_checks 1). kept H (get_keeps 1). apply union_checks. exact H.
Qed.
Lemma baseline_checks : checks ver_baseline.
Proof.
  intros b x p s s' H. unfold ver_baseline in *. opens H.
  checked H (field_checks _ vt len 0 (off_checks _ (vector_checks _ contract_checks))).
  checked H (field_checks _ vt len 1 (off_checks _ (vector_checks _ state_checks))).
  apply (field_checks _ vt len 2 (off_checks _ (vector_checks _ object_checks))). exact H.
Qed.
Lemma verify_keeps : forall b x s, verify b = Some s -> verify (b ++ x) = Some s.
Proof. intros b x s H. unfold verify in *. exact (off_checks _ baseline_checks _ _ _ _ _ H). Qed.
