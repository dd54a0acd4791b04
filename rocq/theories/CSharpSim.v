(** The C# chains of calls against the C chains, and programs. *)
From Verif Require Export CSharpProofs.
Open Scope list_scope.
Open Scope nat_scope.

Lemma throw_same w o e w' : cs_step w o = Throw e w' -> w' = w.
Proof.
  destruct o; cbn [cs_step]; unfold use, typed, inner;
  repeat match goal with
  | |- wrap _ _ _ _ = Throw _ _ -> _ => intros E; exfalso; eapply wrap_throw; exact E
  | |- plain _ _ = Throw _ _ -> _ => intros E; exfalso; eapply plain_throw; exact E
  | |- context [match ?x with _ => _ end] => destruct x eqn:?; try discriminate
  | |- Throw _ _ = Throw _ _ -> _ => intros E; injection E; auto
  end.
Qed.

(** A run without the broken binding keeps the invariant and only nulls wrappers. *)
Lemma runs_inv w l w' : runs w l w' -> winv w -> (forall o, In o l -> ~ broken o) ->
  winv w' /\ forall i x, nth_error (ww w) i = Some x -> nth_error (ww w') i = Some x \/ nth_error (ww w') i = Some (null x).
Proof.
  induction 1 as [w|w o r w1 l w2 E _ IH|w o e w1 l w2 E _ IH]; intros W N.
  - auto.
  - destruct (step_did _ _ _ _ W (N _ (or_introl eq_refl)) E) as [W1 K _]. destruct (IH W1) as [W2 K2]; [intros; apply N; now right|].
    split; [exact W2|]. eapply keep_trans; eauto.
  - apply throw_same in E. subst w1. apply IH; auto. intros; apply N; now right.
Qed.
Lemma reachable_winv w : reachable w -> winv w.
Proof. intros (l & R & N). exact (proj1 (runs_inv _ _ _ R winv_empty N)). Qed.
Lemma reachable_runs w l w' : reachable w -> runs w l w' -> (forall o, In o l -> ~ broken o) -> reachable w'.
Proof.
  intros (l0 & R0 & N0) R N. exists (l0 ++ l). split.
  - clear N0 N. revert R0. generalize empty_world. induction 1 as [w|w0 o r w1 l0 w2 E _ IH|w0 o e w1 l0 w2 E _ IH]; cbn; [exact R| |]; [eapply runs_return|eapply runs_throw]; eauto.
  - intros o Hin. apply in_app_or in Hin. destruct Hin; eauto.
Qed.
(** What was nulled stays so; what is still owned was owned before. *)
Lemma runs_owns w l w' i k p : runs w l w' -> winv w -> (forall o, In o l -> ~ broken o) -> i < length (ww w) ->
  nth_error (ww w') i = Some (mkWr k (Some p) Owned) -> nth_error (ww w) i = Some (mkWr k (Some p) Owned).
Proof.
  intros R W N L E. destruct (runs_inv _ _ _ R W N) as [_ K]. destruct (nth_error (ww w) i) as [x|] eqn:Q.
  - destruct (K _ _ Q) as [Q'|Q']; rewrite E in Q'; [congruence|]. unfold null in Q'. congruence.
  - apply nth_error_None in Q. lia.
Qed.

(** ** Chains *)
Definition agree (P : list wrapper -> Prop) (a : answer) (x : result) : Prop :=
  match x with
  | Done r H => match told r with Some q => exists ws, a = Return q (mkWorld H ws) /\ P ws | None => a = Undefined end
  | Abort => a = Crash
  | UB => a = Undefined
  end.
Lemma agree_wrap P k o ws r K k' :
  (forall p H, r = Done (RPtr p) H -> agree P (K (length ws) (mkWorld H (ws ++ [mkWr k (Some p) o]))) (k' p H)) ->
  agree P (andthen (wrap k o ws r) K) (with_ptr r k').
Proof. intros Q. destruct r as [[]| |]; cbn; try reflexivity. apply Q. reflexivity. Qed.
Lemma agree_plain (P : list wrapper -> Prop) ws r : P ws -> agree P (plain ws r) r.
Proof. intros Q. destruct r as [[]| |]; cbn; eauto. Qed.
Lemma nth_old {A} (l m : list A) i x : nth_error l i = Some x -> nth_error (l ++ m) i = Some x.
Proof. intros E. rewrite nth_error_app1; [exact E|]. apply nth_error_Some. congruence. Qed.
Lemma nth_new {A} (l : list A) x : nth_error (l ++ [x]) (length l) = Some x.
Proof. rewrite nth_error_app2 by lia. rewrite Nat.sub_diag. reflexivity. Qed.

Lemma typed_known w i k f p o : nth_error (ww w) i = Some (mkWr k p o) -> typed w i k f = f (mkWr k p o).
Proof. intros E. unfold typed. rewrite E. cbn [wr_kind]. now rewrite (proj2 (wkind_eqb_eq k k) eq_refl). Qed.
Lemma use_known w i k f p o : nth_error (ww w) i = Some (mkWr k (Some p) o) -> use w i k f = f p.
Proof. intros E. unfold use. rewrite (typed_known _ _ _ _ _ _ E). reflexivity. Qed.

Lemma accessor_bindable f : has_accessor f = true -> bindable (exfield_prim f) = true /\ mutable (exfield_prim f) = true /\ has_value (exfield_prim f) = true.
Proof. destruct f; cbn; auto; discriminate. Qed.

Definition extra (ws ws' : list wrapper) : Prop := forall i x, nth_error ws i = Some x -> nth_error ws' i = Some x.
Lemma extra_app ws m : extra ws (ws ++ m). Proof. intros i x E. now apply nth_old. Qed.
Lemma extra_trans a b c : extra a b -> extra b c -> extra a c. Proof. intros F G i x E. auto. Qed.

Lemma agree_bind P w c b o f pc pb po oc ob oo K k :
  has_accessor f = true ->
  nth_error (ww w) c = Some (mkWr WCon (Some pc) oc) -> nth_error (ww w) b = Some (mkWr WBase (Some pb) ob) ->
  nth_error (ww w) o = Some (mkWr (WVal TObjectHandle) (Some po) oo) ->
  (forall ws p H, extra (ww w) ws -> agree P (K (length ws) (mkWorld H (ws ++ [mkWr (WSh (exfield_prim f)) (Some p) Owned]))) (k p H)) ->
  agree P (cs_bind w c b o f K) (bind_field (wh w) pc pb po f k).
Proof.
  intros Hf Nc Nb No HK. destruct (accessor_bindable _ Hf) as (Hb & _). unfold cs_bind, bind_field.
  cbn [cs_step]. rewrite (use_known _ _ _ _ _ _ Nc). apply agree_wrap. intros p1 H1 E1.
  cbn [cs_step]. rewrite Hf. cbn [negb]. erewrite use_known by (cbn [ww]; apply nth_new). cbn [wh ww]. apply agree_wrap. intros p2 H2 E2.
  cbn [cs_step]. rewrite Hb. cbn [negb ww wh].
  erewrite typed_known by (cbn [ww]; do 2 apply nth_old; exact Nb). erewrite typed_known by (cbn [ww]; apply nth_new).
  erewrite typed_known by (cbn [ww]; do 2 apply nth_old; exact No). cbn [inner wr_inner]. apply agree_wrap. intros p3 H3 E3.
  apply HK. eapply extra_trans; apply extra_app.
Qed.

Lemma agree_read w c b o f pc pb po oc ob oo :
  has_accessor f = true ->
  nth_error (ww w) c = Some (mkWr WCon (Some pc) oc) -> nth_error (ww w) b = Some (mkWr WBase (Some pb) ob) ->
  nth_error (ww w) o = Some (mkWr (WVal TObjectHandle) (Some po) oo) ->
  agree (fun _ => True) (cs_read w c b o f) (read_field (wh w) pc pb po f).
Proof.
  intros Hf Nc Nb No. destruct (accessor_bindable _ Hf) as (Hb & _ & Hv). unfold cs_read, read_field.
  eapply agree_bind; eauto. intros ws p H X. cbn [cs_step ww wh]. rewrite Hb. cbn [negb].
  erewrite typed_known by (cbn [ww]; apply nth_old, X; exact Nb). erewrite typed_known by (cbn [ww]; apply nth_new). cbn [inner wr_inner].
  apply agree_wrap. intros p1 H1 E1. unfold cs_value. cbn [cs_step]. erewrite use_known by (cbn [ww]; apply nth_new). cbn [ww wh].
  apply agree_wrap. intros p2 H2 E2. cbn [cs_step ww wh]. rewrite nth_new. rewrite Hv. cbn [inner wr_inner]. now apply agree_plain.
Qed.

(** Reading through C# is reading through C. *)
Lemma andthen_return a K r w' : andthen a K = Return r w' -> exists i w1, a = Return (Ref i) w1 /\ K i w1 = Return r w'.
Proof. destruct a as [[] | | | |]; try discriminate. cbn. eauto. Qed.
Lemma extra_wrap k o ws x i w1 : wrap k o ws x = Return (Ref i) w1 -> extra ws (ww w1) /\ i = length ws.
Proof. intros E. apply wrap_return in E. destruct E as (p & H & _ & Q & ->). injection Q as ->. split; [apply extra_app|reflexivity]. Qed.
Lemma read_args w c b o f r w' : cs_read w c b o f = Return r w' ->
  has_accessor f = true /\ exists pc pb po oc ob oo, nth_error (ww w) c = Some (mkWr WCon (Some pc) oc) /\
    nth_error (ww w) b = Some (mkWr WBase (Some pb) ob) /\ nth_error (ww w) o = Some (mkWr (WVal TObjectHandle) (Some po) oo).
Proof.
  unfold cs_read, cs_bind. intros E. apply andthen_return in E. destruct E as (s & w1 & E1 & E). apply andthen_return in E. destruct E as (i & w2 & E2 & E).
  apply andthen_return in E. destruct E as (h & w3 & E3 & _).
  cbn [cs_step] in E1. apply use_return in E1. destruct E1 as (pc & oc & Nc & E1). pose proof E1 as X1. apply extra_wrap in X1. destruct X1 as [X1 ->].
  apply wrap_return in E1. destruct E1 as (p1 & H1 & _ & _ & ->). cbn [ww] in X1.
  cbn [cs_step] in E2. destruct (has_accessor f) eqn:Hf; cbn [negb] in E2; [|discriminate]. split; [reflexivity|].
  apply use_return in E2. destruct E2 as (p2 & o2 & N2 & E2). apply wrap_return in E2. destruct E2 as (p2' & H2 & _ & _ & ->).
  cbn [cs_step] in E3. destruct (negb (bindable (exfield_prim f))); [discriminate|].
  apply typed_return in E3. destruct E3 as (pb & ob & Nb & E3). apply typed_return in E3. destruct E3 as (pi & oi & Ni & E3). apply typed_return in E3. destruct E3 as (po & oo & No & E3).
  apply inner_return in E3. destruct E3 as (qb & Qb & E3). apply inner_return in E3. destruct E3 as (qi & Qi & E3). apply inner_return in E3. destruct E3 as (qo & Qo & E3).
  cbn [wr_inner] in Qb, Qi, Qo. subst pb pi po. cbn [ww] in Nb, No.
  assert (Old : forall j k q ow, nth_error ((ww w ++ [mkWr WFields (Some p1) SharedRef]) ++ [mkWr (WSid (exfield_prim f)) (Some p2') Owned]) j = Some (mkWr k q ow) ->
     k <> WFields -> (forall t, k <> WSid t) -> nth_error (ww w) j = Some (mkWr k q ow)).
  { intros j k q ow Nj K1 K2. destruct (Nat.lt_ge_cases j (length (ww w))) as [Lj|Lj].
    - rewrite <- app_assoc, nth_error_app1 in Nj by exact Lj. exact Nj.
    - exfalso. rewrite <- app_assoc, nth_error_app2 in Nj by exact Lj. destruct (j - length (ww w)) as [|[|[|]]]; cbn in Nj; try discriminate;
        injection Nj; intros; subst; [now apply K1|]. eapply K2; reflexivity. }
  apply Old in Nb; try discriminate. apply Old in No; try discriminate. exists pc, qb, qo, oc, ob, oo. auto.
Qed.
Lemma sees_shows w c b o f v : sees w c b o f v <->
  has_accessor f = true /\ exists pc pb po oc ob oo, nth_error (ww w) c = Some (mkWr WCon (Some pc) oc) /\
    nth_error (ww w) b = Some (mkWr WBase (Some pb) ob) /\ nth_error (ww w) o = Some (mkWr (WVal TObjectHandle) (Some po) oo) /\
    shows (wh w) pc pb po f v.
Proof.
  split.
  - intros (w' & E). destruct (read_args _ _ _ _ _ _ _ E) as (Hf & pc & pb & po & oc & ob & oo & Nc & Nb & No).
    split; [exact Hf|]. exists pc, pb, po, oc, ob, oo. repeat (split; [assumption|]).
    pose proof (agree_read w c b o f _ _ _ _ _ _ Hf Nc Nb No) as A. rewrite E in A. unfold shows.
    destruct (read_field (wh w) pc pb po f) as [r H| |]; try discriminate. destruct r; cbn in A;
      try (destruct A as (ws & A & _); first [discriminate A | injection A as -> _; eauto]); discriminate.
  - intros (Hf & pc & pb & po & oc & ob & oo & Nc & Nb & No & (H & S)).
    pose proof (agree_read w c b o f _ _ _ _ _ _ Hf Nc Nb No) as A. rewrite S in A. cbn in A. destruct A as (ws & A & _). unfold sees. eauto.
Qed.

(** Writing. *)
Lemma agree_write w c b o f pc pb po oc ob oo x px ox :
  has_accessor f = true -> ob <> SharedRef ->
  nth_error (ww w) c = Some (mkWr WCon (Some pc) oc) -> nth_error (ww w) b = Some (mkWr WBase (Some pb) ob) ->
  nth_error (ww w) o = Some (mkWr (WVal TObjectHandle) (Some po) oo) ->
  nth_error (ww w) x = Some (mkWr (WVal (exfield_prim f)) (Some px) ox) ->
  agree (fun ws => nth_error ws x = Some (mkWr (WVal (exfield_prim f)) None ox) /\
                   forall i y, i <> x -> nth_error (ww w) i = Some y -> nth_error ws i = Some y)
    (cs_write w c b o f x) (write_field (wh w) pc pb po f px).
Proof.
  intros Hf Sb Nc Nb No Nx. destruct (accessor_bindable _ Hf) as (Hb & Hm & Hv). unfold cs_write, write_field.
  eapply agree_bind; eauto. intros ws p H X. cbn [cs_step ww wh]. rewrite Hm. cbn [negb].
  erewrite typed_known by (cbn [ww]; apply nth_old, X; exact Nb). erewrite typed_known by (cbn [ww]; apply nth_new).
  cbn [inner wr_inner wr_own]. destruct (is_shared ob) eqn:S; [destruct ob; cbn in S; congruence|].
  apply agree_wrap. intros p1 H1 E1. cbn [cs_step]. erewrite typed_known by (cbn [ww]; apply nth_new).
  erewrite typed_known by (cbn [ww]; do 2 apply nth_old; apply X; exact Nx). cbn [inner wr_inner ww wh].
  apply agree_plain. split.
  - rewrite forget_nth, Nat.eqb_refl. erewrite nth_old; [|apply nth_old, X; exact Nx]. reflexivity.
  - intros i y Ni E. rewrite forget_nth. destruct (Nat.eqb_spec x i); [congruence|]. apply nth_old, nth_old, X, E.
Qed.
