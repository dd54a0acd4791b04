(** Owned wrappers, and the states and baselines behind them. *)
From Verif Require Export CSharpSim.
Open Scope list_scope.
Open Scope nat_scope.

Lemma prim_of v t : match dynprim_type v with TPrim t => t | TVec t => t end = t <-> dynprim_type v = TPrim t.
Proof. destruct v; cbn; split; congruence. Qed.

(** A boxed state holds a value of its type. *)
Lemma state_boxes H : reaches H -> forall a t v, look H a = Some (CSt t v) -> exists d, v = PPrim d /\ dynprim_type d = TPrim t.
Proof.
  induction 1 as [|H c r H' R IH E]; intros a t v L; [destruct a; discriminate|].
  pose proof (reaches_hinv _ R) as I. destruct (step_change _ _ _ _ I E) as [_ Ch]. specialize (Ch a). rewrite L in Ch.
  destruct (look H a) as [x|] eqn:La; inversion Ch as [y Q|y Q|y Q1 Q2| | |t0 v0 p v1 Q]; subst.
  - eapply IH; eauto.
  - (* assigned *) cbn [step] in E. destruct (negb (state_ok H t (PBox a))); [discriminate|].
    destruct (owned_val H t p) as [[a1 d]|] eqn:Ow; [|discriminate]. injection E as _ <-.
    apply owned_val_some in Ow. destruct Ow as (_ & _ & T). apply look_free_some in L. destruct L as [L _].
    rewrite (look_put _ _ _ _ _ La), Nat.eqb_refl in L. injection L as <-. eauto.
  - (* new *) destruct c; cbn [step] in E;
      repeat match type of E with
      | context [match owned_val H ?t0 ?q with _ => _ end] =>
          let Q := fresh "Q" in destruct (owned_val H t0 q) as [[? ?]|] eqn:Q; try discriminate
      | context [match ?x with _ => _ end] => destruct x eqn:?; try discriminate
      end;
      try (injection E as _ <-; exfalso; unfold free, put in L; apply look_lt in L; rewrite ?list_set_length in L; lia);
      try (injection E as _ <-; exfalso; apply look_alloc_cases in L; destruct L as [L|[_ L]];
           [apply look_lt in L; lia|discriminate L]);
      (apply new_box_done in E; destruct E as [-> ->]; apply look_alloc_cases in L; destruct L as [L|[Q' L]];
       [exfalso; apply look_lt in L; unfold free, put in L; rewrite ?list_set_length in L; lia|]); try discriminate.
    injection L as -> ->. apply owned_val_some in Q. destruct Q as (_ & _ & T). eauto.
Qed.

Section Owned.
Context (w : world) (W : winv w).
Lemma owned_base i p : nth_error (ww w) i = Some (mkWr WBase (Some p) Owned) -> exists a b e, p = PBox a /\ look (wh w) a = Some (CBase b e).
Proof. intros N. destruct (wi_own _ W _ _ _ N) as (a & c & -> & L & K). destruct c; try discriminate. eauto. Qed.
Lemma owned_con i p : nth_error (ww w) i = Some (mkWr WCon (Some p) Owned) -> exists a c, p = PBox a /\ look (wh w) a = Some (CCon c).
Proof. intros N. destruct (wi_own _ W _ _ _ N) as (a & c & -> & L & K). destruct c; try discriminate. eauto. Qed.
Lemma owned_sid i t p : nth_error (ww w) i = Some (mkWr (WSid t) (Some p) Owned) -> exists a c, p = PBox a /\ look (wh w) a = Some (CSid t c).
Proof. intros N. destruct (wi_own _ W _ _ _ N) as (a & c & -> & L & K). destruct c; try discriminate. injection K as ->. eauto. Qed.
Lemma owned_sh i t p : nth_error (ww w) i = Some (mkWr (WSh t) (Some p) Owned) -> exists a c, p = PBox a /\ look (wh w) a = Some (CSh t c).
Proof. intros N. destruct (wi_own _ W _ _ _ N) as (a & c & -> & L & K). destruct c; try discriminate. injection K as ->. eauto. Qed.
Lemma owned_value i t p : nth_error (ww w) i = Some (mkWr (WVal t) (Some p) Owned) ->
  exists a v, p = PBox a /\ look (wh w) a = Some (CVal v) /\ dynprim_type v = TPrim t.
Proof. intros N. destruct (wi_own _ W _ _ _ N) as (a & c & -> & L & K). destruct c; try discriminate. injection K as K. apply prim_of in K. eauto. Qed.
Lemma owned_state i t p : nth_error (ww w) i = Some (mkWr (WSt t) (Some p) Owned) ->
  exists a v, p = PBox a /\ look (wh w) a = Some (CSt t (PPrim v)) /\ dynprim_type v = TPrim t.
Proof.
  intros N. destruct (wi_own _ W _ _ _ N) as (a & c & -> & L & K). destruct c; try discriminate. injection K as ->.
  destruct (state_boxes _ (wi_reach _ W) _ _ _ L) as (d & -> & T). eauto.
Qed.
Lemma owned_held i k p : nth_error (ww w) i = Some (mkWr k (Some p) Owned) -> held (wh w) p.
Proof. intros N. destruct (wi_own _ W _ _ _ N) as (a & c & -> & L & _). apply held_box. congruence. Qed.

(** What an owned state reads. *)
Lemma reads_box s t a v : nth_error (ww w) s = Some (mkWr (WSt t) (Some (PBox a)) Owned) ->
  reads w t s v <-> has_value t = true /\ look (wh w) a = Some (CSt t (PPrim v)).
Proof.
  intros N. unfold reads, cs_value. cbn [cs_step]. rewrite (use_known _ _ _ _ _ _ N).
  destruct (owned_state _ _ _ N) as (a' & d & Qa & L & T). injection Qa as <-.
  cbn [step state_ok]. rewrite L, prim_eqb_refl. cbn [wrap andthen cs_step ww wh]. rewrite nth_new. destruct (has_value t).
  - cbn [inner wr_inner step val_at]. rewrite L. cbn [plain]. split.
    + intros (w' & E). injection E as -> _. auto.
    + intros [_ E]. injection E as ->. eauto.
  - split; [intros (w' & E); discriminate|intros [Q _]; discriminate].
Qed.
End Owned.

Lemma holds_loads w x v : holds w x v -> exists t p o, nth_error (ww w) x = Some (mkWr (WVal t) (Some p) o) /\ has_value t = true /\ loads (wh w) p v.
Proof.
  unfold holds. cbn [cs_step]. destruct (nth_error (ww w) x) as [[k p o]|] eqn:N; [|discriminate]. destruct k; try discriminate.
  destruct (has_value t) eqn:Hv; [|discriminate]. intros E. apply inner_return in E. destruct E as (q & Q & E). cbn in Q. subst p.
  apply plain_return in E. destruct E as (r0 & H & E & T & Qw). destruct r0; try discriminate. injection T as ->.
  exists t, q, o. split; [reflexivity|]. split; [exact Hv|]. unfold loads. rewrite E. destruct w. cbn in *. congruence.
Qed.
Lemma owns_holds w x t v : winv w -> owns w x (WVal t) -> holds w x v ->
  exists a, nth_error (ww w) x = Some (mkWr (WVal t) (Some (PBox a)) Owned) /\ look (wh w) a = Some (CVal v) /\ dynprim_type v = TPrim t /\ has_value t = true.
Proof.
  intros W (p & N) Hx. destruct (holds_loads _ _ _ Hx) as (t' & q & o & N' & Hv & Ld). rewrite N in N'. injection N' as <- <- <-.
  destruct (owned_value _ W _ _ _ N) as (a & d & -> & L & T). apply loads_box in Ld. rewrite L in Ld. injection Ld as ->. eauto 6.
Qed.

(** Changes to one box of a baseline or a state. *)
Lemma step_look w o r w' i k a x : winv w -> ~ broken o -> cs_step w o = Return r w' ->
  nth_error (ww w') i = Some (mkWr k (Some (PBox a)) Owned) -> look (wh w) a = Some x ->
  look (wh w') a = Some x \/ exists c r0 y, step (wh w) c = Done r0 (wh w') /\ origin w o c /\ look (wh w') a = Some y /\ cell_kind y = cell_kind x /\ change (wh w) c a (Some x) (Some y).
Proof.
  intros W Nb E N L. destruct (step_did _ _ _ _ W Nb E) as [W' _ [Q|(c & r0 & S & O & _)]]; [left; now rewrite Q|].
  right. destruct (wi_own _ W' _ _ _ N) as (a' & y & Qa & L' & _). injection Qa as <-.
  pose proof (reaches_hinv _ (wi_reach _ W)) as I. destruct (step_change _ _ _ _ I S) as [_ Ch]. specialize (Ch a). rewrite L, L' in Ch.
  exists c, r0, y. repeat (split; [eassumption|]). split; [|exact Ch]. eapply kind_kept; eauto.
Qed.

(** Views come only from borrowing. *)
Lemma step_views w o r w' j p ow : cs_step w o = Return r w' -> ow <> Owned -> nth_error (ww w') j = Some (mkWr WBase (Some p) ow) ->
  nth_error (ww w) j = Some (mkWr WBase (Some p) ow) \/ exists b m ob, o = BorrowBaseline b m /\ nth_error (ww w) b = Some (mkWr WBase (Some p) ob).
Proof.
  intros E Now N.
  assert (Old : forall ws k q o0, nth_error (ws ++ [mkWr k (Some q) o0]) j = Some (mkWr WBase (Some p) ow) -> (k = WBase -> o0 = Owned) ->
     nth_error ws j = Some (mkWr WBase (Some p) ow)).
  { intros ws k q o0 Q Hk. destruct (Nat.lt_ge_cases j (length ws)) as [Lj|Lj]; [now rewrite nth_error_app1 in Q|].
    rewrite nth_error_app2 in Q by exact Lj. destruct (j - length ws) as [|n]; cbn in Q; [|destruct n; discriminate]. injection Q as -> -> ->. exfalso. auto. }
  assert (Fg : forall ws x, nth_error (forget ws x) j = Some (mkWr WBase (Some p) ow) -> nth_error ws j = Some (mkWr WBase (Some p) ow)).
  { intros ws x. rewrite forget_nth. destruct (Nat.eqb x j); [|auto]. destruct (nth_error ws j); cbn; discriminate. }
  destruct o; cbn [cs_step] in E;
  try match type of E with use _ _ _ (fun p => Return _ _) = _ =>
    apply use_return in E; destruct E as (q & ob & Nb & E); injection E as _ <-; cbn [ww] in N;
    destruct (Nat.lt_ge_cases j (length (ww w))) as [Lj|Lj]; [left; now rewrite nth_error_app1 in N|];
    rewrite nth_error_app2 in N by exact Lj; destruct (j - length (ww w)) as [|n]; cbn in N; [|destruct n; discriminate];
    injection N as -> _; right; eauto 6
  end;
  unfold use, typed in E;
  repeat match type of E with
  | wrap _ _ _ _ = Return _ _ => apply wrap_return in E; destruct E as (? & ? & _ & _ & ->); cbn [ww] in N; left
  | plain _ _ = Return _ _ => apply plain_return in E; destruct E as (? & ? & _ & _ & ->); cbn [ww] in N; left
  | inner _ _ _ = Return _ _ => apply inner_return in E; destruct E as (? & ? & E)
  | context [match ?x with _ => _ end] => destruct x eqn:?; try discriminate
  end;
  try (apply Old in N; [|first [discriminate | reflexivity]]);
  repeat (apply Fg in N); try exact N.
  all: injection E as <- <-; cbn [ww] in N; left; repeat (apply Fg in N); exact N.
Qed.
