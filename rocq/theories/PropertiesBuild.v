(** C56: the build script of the Unity demo (client/build_mac_host.sh). *)
From Verif Require Import BuildProofs BuildExample.
Import Coq.Strings.String.StringSyntax.
Open Scope string_scope.
Open Scope list_scope.
Open Scope nat_scope.

(** ** Links *)

Lemma tree_above : forall f, tree f -> forall r p, f (p ++ r) <> None -> r <> [] -> p = [] \/ f p = Some Dir.
Proof.
  intros f T r. induction r as [|x r IH] using rev_ind; intros p E N; [congruence|].
  rewrite app_assoc in E. destruct (T _ _ E) as [K|K].
  - left. apply app_eq_nil in K. apply K.
  - destruct r as [|y r]; [right; rewrite app_nil_r in K; exact K|]. apply IH; [congruence|discriminate].
Qed.
Lemma reaches_down : forall f, tree f -> forall rest d q, reaches f (d ++ rest) [] q ->
  (exists v, f (d ++ rest) = Some (File v)) -> rest <> [] -> ~ In ".." rest -> reaches f d rest q.
Proof.
  intros f T rest. induction rest as [|c rest IH]; intros d q R [v E] N D; [congruence|].
  assert (C : c <> "..") by (intros ->; apply D; left; reflexivity).
  destruct rest as [|c' rest].
  - inversion R; subst. eapply reaches_file; eauto.
  - replace (d ++ c :: c' :: rest) with ((d ++ [c]) ++ c' :: rest) in * by (rewrite <- app_assoc; reflexivity).
    apply reaches_dir; [exact C| |].
    + destruct (tree_above f T (c' :: rest) (d ++ [c])) as [K|K]; [congruence|discriminate| |exact K].
      destruct (snoc_not_nil _ _ _ K).
    + apply IH; [exact R|exists v; exact E|discriminate|]. intros K. apply D. right. exact K.
Qed.
Lemma reaches_ups : forall f u d rest q, reaches f (d ++ u) (up (length u) ++ rest) q <-> reaches f d rest q.
Proof.
  intros f u. induction u as [|x u IH] using rev_ind; intros d rest q.
  - cbn [length up repeat app]. rewrite app_nil_r. reflexivity.
  - rewrite app_length, Nat.add_comm. unfold up. cbn [length Nat.add repeat app].
    rewrite app_assoc. split.
    + intros H. inversion H; subst.
      * match goal with K : _ ++ [_] = _ ++ [_] |- _ => apply app_inj_tail in K; destruct K; subst end. apply IH. assumption.
      * congruence.
      * congruence.
      * congruence.
    + intros H. apply reaches_up. apply IH. exact H.
Qed.
(** Without links on the way, a path without [..] leads where it says. *)
Lemma reaches_plain : forall f d rest q, reaches f d rest q -> ~ In ".." rest ->
  (forall k t, f (d ++ firstn (S k) rest) <> Some (Link t)) -> q = d ++ rest.
Proof.
  intros f d rest q H. induction H as [d|d c rest q H IH|d c rest q N E H IH|d c v N E|d c t rest q N E H IH]; intros D L.
  - symmetry. apply app_nil_r.
  - destruct D. left. reflexivity.
  - rewrite IH; [rewrite <- app_assoc; reflexivity|intros K; apply D; right; exact K|].
    intros k t K. apply (L (S k) t). rewrite <- app_assoc in K. exact K.
  - reflexivity.
  - destruct (L 0 t). exact E.
Qed.
(** To a link, through the directories it is in. *)
Lemma reaches_to_link : forall f, tree f -> forall rest d n t q, f (d ++ rest ++ [n]) = Some (Link t) ->
  ~ In ".." (rest ++ [n]) -> (reaches f d (rest ++ [n]) q <-> reaches f (d ++ rest) t q).
Proof.
  intros f T rest. induction rest as [|c rest IH]; intros d n t q E D; cbn [app] in *.
  - rewrite app_nil_r. assert (N : n <> "..") by (intros ->; apply D; left; reflexivity). split.
    + intros H. inversion H; subst; try congruence.
      match goal with K : reaches f d (_ ++ []) _ |- _ => rewrite app_nil_r in K end. congruence.
    + intros H. eapply reaches_link; [exact N|exact E|]. rewrite app_nil_r. exact H.
  - assert (N : c <> "..") by (intros ->; apply D; left; reflexivity).
    assert (X : d ++ c :: rest ++ [n] = (d ++ [c]) ++ rest ++ [n]) by (rewrite <- app_assoc; reflexivity).
    rewrite X in E.
    assert (C : f (d ++ [c]) = Some Dir).
    { destruct (tree_above f T (rest ++ [n]) (d ++ [c])) as [K|K]; [congruence|apply snoc_not_nil| |exact K].
      destruct (snoc_not_nil _ _ _ K). }
    replace (d ++ c :: rest) with ((d ++ [c]) ++ rest) by (rewrite <- app_assoc; reflexivity).
    rewrite <- (IH (d ++ [c]) n t q E) by (intros K; apply D; right; exact K). split.
    + intros H. inversion H; subst; try congruence; destruct rest; discriminate.
    + intros H. apply reaches_dir; assumption.
Qed.
(** A link out of the directory [here ++ deep] to [here ++ there]. *)
Lemma link_opens : forall f here deep n there v, tree f ->
  f ((here ++ deep) ++ [n]) = Some (Link (up (length deep) ++ there)) ->
  ~ In ".." ((here ++ deep) ++ [n]) -> there <> [] -> ~ In ".." there ->
  (f (here ++ there) = Some (File v) -> opens f ((here ++ deep) ++ [n]) v) /\
  ((forall k t, f (here ++ firstn (S k) there) <> Some (Link t)) ->
   opens f ((here ++ deep) ++ [n]) v -> f (here ++ there) = Some (File v)).
Proof.
  intros f here deep n there v T L D N D'.
  pose proof (fun q => reaches_to_link f T (here ++ deep) [] n _ q L D) as R. cbn [app] in R. split.
  - intros E. exists (here ++ there). split; [|exact E]. apply R. apply reaches_ups.
    apply reaches_down; auto; [constructor|]. exists v. exact E.
  - intros K [q [Q E]]. apply R in Q. apply (proj1 (reaches_ups f deep here there q)) in Q.
    rewrite (reaches_plain f here there q Q D' K) in E. exact E.
Qed.

(** ** What stays true *)

Record ready (f : fs) : Prop := {
  rd_tree : tree f;
  rd_links : forall p t, In (p, t) links -> f p = Some (Link t);
  rd_cs_bin : f ["demos"; "unity_states"; "cs"; "bin"] = None;
  rd_tests : f ["client"; "cs"; "tests"] = Some Dir;
  rd_demo : f ["demos"; "unity_states"; "cs"; "src"] = Some Dir;
  rd_target : none_or_dir f ["target"];
  rd_dirs : forall t, none_or_dir f ["target"; triple_name t];
  rd_places : forall t, none_or_file f (placed_at t)
}.
Lemma tree_below : forall f p, tree f -> f p = None -> p <> [] -> forall r, f (p ++ r) = None.
Proof.
  intros f p T E N r. destruct r as [|x r]; [rewrite app_nil_r; exact E|].
  destruct (f (p ++ x :: r)) eqn:K; [|reflexivity].
  destruct (tree_above f T (x :: r) p) as [H|H]; congruence.
Qed.
Lemma clean_ready : forall text f, clean text f -> ready f.
Proof.
  intros text f [T L P A Te De Ta B C].
  pose proof (tree_below f ["target"] T Ta ltac:(discriminate)) as U.
  split; auto.
  - left. exact Ta.
  - intros t. left. exact (U [triple_name t]).
  - intros t. left. exact (U [triple_name t; library t]).
Qed.

(** What the script does to these places: one computation for all options. *)
Definition leaves_these (o : flags) (host : triple) : bool :=
  forallb (fun p => forallb (leaves p) (script o host))
    (map fst links ++ [["demos"; "unity_states"; "cs"; "bin"]]).
Definition spared : list path :=
  [["client"; "cs"; "tests"]; ["demos"; "unity_states"; "cs"; "src"]; ["target"]] ++
  map (fun t => ["target"; triple_name t]) triples.
Definition spares_these (o : flags) (host : triple) : bool :=
  forallb (fun p => forallb (spares p) (script o host))
    spared.
Definition follows_these (o : flags) (host : triple) : bool :=
  forallb (fun t => match follows (f_release o) t (script o host) (false, Old) with
                    | Some (_, v) =>
                        Bool.eqb (is_new v)
                          (match t with
                           | MacArm | MacIntel => triple_eqb t host
                           | AppleIos => f_ios o
                           | AndroidArm64 | AndroidArm => f_android o
                           | LinuxGnu => f_linux o
                           end) &&
                        match t, v with MacIntel, _ => true | _, Old => false | _, _ => true end
                    | None => false
                    end)%bool triples.
Definition all_named (o : flags) (host : triple) : bool := forallb named (script o host).
Lemma leaves_these_all : forall o host, is_mac host -> leaves_these o host = true.
Proof. apply every_spec. vm_compute. reflexivity. Qed.
Lemma spares_these_all : forall o host, is_mac host -> spares_these o host = true.
Proof. apply every_spec. vm_compute. reflexivity. Qed.
Lemma follows_these_all : forall o host, is_mac host -> follows_these o host = true.
Proof. apply every_spec. vm_compute. reflexivity. Qed.
Lemma all_named_all : forall o host, is_mac host -> all_named o host = true.
Proof. apply every_spec. vm_compute. reflexivity. Qed.
Lemma in_triples : forall t, In t triples.
Proof. intros []; cbn; intuition. Qed.
Lemma script_follows : forall o host t, is_mac host -> exists b v,
  follows (f_release o) t (script o host) (false, Old) = Some (b, v) /\
  (v = New <-> match t with
               | MacArm | MacIntel => t = host
               | AppleIos => f_ios o = true
               | AndroidArm64 | AndroidArm => f_android o = true
               | LinuxGnu => f_linux o = true
               end) /\ (v = Old -> t = MacIntel).
Proof.
  intros o host t M. pose proof (follows_these_all o host M) as F. unfold follows_these in F.
  rewrite forallb_forall in F. specialize (F t (in_triples t)).
  destruct (follows (f_release o) t (script o host) (false, Old)) as [[b v]|]; [|discriminate].
  apply andb_true_iff in F. destruct F as [F G]. apply Bool.eqb_prop in F.
  exists b, v. split; [reflexivity|]. split.
  - assert (V : v = New <-> is_new v = true) by (destruct v; cbn; split; congruence).
    rewrite V, F. destruct t; try reflexivity; split; intros K;
      try (apply triple_eqb_true in K; congruence); subst; reflexivity.
  - intros ->. destruct t; try discriminate G. reflexivity.
Qed.

Section Run.
Variables (tools : programs) (full : bool) (product : bool -> triple -> string)
  (dll : bool -> string -> string) (runtime : string) (o : flags) (host : triple).
Hypothesis TC : toolchain tools product dll runtime.
Hypothesis M : is_mac host.

Lemma exec_left : forall p f ok f', In p (map fst links ++ [["demos"; "unity_states"; "cs"; "bin"]]) ->
  exec tools full (script o host) f ok f' -> f' p = f p.
Proof.
  intros p f ok f' I' H. pose proof (leaves_these_all o host M) as L. unfold leaves_these in L.
  rewrite forallb_forall in L. exact (exec_leaves _ _ _ _ _ TC _ _ _ _ _ (L p I') H).
Qed.
Lemma script_spares : forall p, In p spared ->
  forallb (spares p) (script o host) = true.
Proof.
  intros p I'. pose proof (spares_these_all o host M) as L. unfold spares_these in L.
  rewrite forallb_forall in L. exact (L p I').
Qed.
Lemma in_dirs : forall t, In ["target"; triple_name t] spared.
Proof. intros t. unfold spared. apply in_or_app. right. apply in_map_iff. exists t. split; [reflexivity|apply in_triples]. Qed.
Lemma in_target : In ["target"] spared.
Proof. right. right. left. reflexivity. Qed.
Lemma exec_spared : forall p f ok f', In p spared ->
  exec tools full (script o host) f ok f' -> none_or_dir f p -> none_or_dir f' p.
Proof.
  intros p f ok f' I' H D.
  destruct (exec_spares _ _ _ _ _ TC _ _ _ _ _ (script_spares p I') H) as [E|[_ E]]; unfold none_or_dir; rewrite E; auto.
Qed.
Lemma run_library : forall t f ok f', ready f -> exec tools full (script o host) f ok f' ->
  none_or_file f' (placed_at t) /\
  exists v, means full product (f_release o) t v (f (placed_at t)) (f' (placed_at t)) /\
    (v = New -> match t with
               | MacArm | MacIntel => t = host
               | AppleIos => f_ios o = true
               | AndroidArm64 | AndroidArm => f_android o = true
               | LinuxGnu => f_linux o = true
               end) /\
    (ok = true -> (v = New <-> match t with
               | MacArm | MacIntel => t = host
               | AppleIos => f_ios o = true
               | AndroidArm64 | AndroidArm => f_android o = true
               | LinuxGnu => f_linux o = true
               end) /\ (v = Old -> t = MacIntel)).
Proof.
  intros t f ok f' R H. destruct (script_follows o host t M) as [b [v [F [N T]]]].
  destruct (exec_follow tools full product dll runtime TC (f_release o) t (script o host) (f (placed_at t))
              _ _ f ok f' F (script_spares _ in_target) (script_spares _ (in_dirs t)) H
              (rd_target f R) (rd_dirs f R t) (rd_places f R t)) as [A [B [w [C D]]]].
  { split; [discriminate|reflexivity]. }
  split; [exact A|]. destruct ok.
  - destruct (B eq_refl) as [_ S2]. exists v. split; [exact S2|]. split; [apply N|]. intros _. split; assumption.
  - exists w. split; [exact C|]. split; [|discriminate]. intros W. apply N. exact (D W).
Qed.
Lemma exec_ready : forall f ok f', ready f -> exec tools full (script o host) f ok f' -> ready f'.
Proof.
  intros f ok f' R H. split.
  - eapply exec_tree; [exact TC|exact (all_named_all o host M)|exact H|apply R].
  - intros p t I'. rewrite (exec_left p f ok f'); [apply R; exact I'| |exact H].
    apply in_or_app. left. apply in_map_iff. exists (p, t). auto.
  - rewrite (exec_left _ f ok f'); [apply R| |exact H]. apply in_or_app. right. left. reflexivity.
  - destruct (exec_spares _ _ _ _ _ TC _ _ _ _ _ (script_spares _ (or_introl eq_refl)) H) as [E|[E _]];
      pose proof (rd_tests f R); congruence.
  - destruct (exec_spares _ _ _ _ _ TC _ _ _ _ _ (script_spares _ (or_intror (or_introl eq_refl))) H) as [E|[E _]];
      pose proof (rd_demo f R); congruence.
  - eapply exec_spared; [apply in_target|exact H|apply R].
  - intros t. eapply exec_spared; [apply in_dirs|exact H|apply R].
  - intros t. exact (proj1 (run_library t f ok f' R H)).
Qed.
End Run.

Lemma history_ready : forall f g, history f g -> ready f -> ready g.
Proof.
  intros f g H R. induction H as [|tools product dll runtime full host env args g ok h H IH TC M E]; [exact R|].
  eapply exec_ready; eauto.
Qed.

(** What each link opens. *)
Lemma native_opens : forall f t p tgt v, ready f -> In (t, p, tgt) native_links ->
  (opens f p v <-> f (placed_at t) = Some (File v)).
Proof.
  intros f t p tgt v R I'.
  assert (L : f p = Some (Link tgt)).
  { apply (rd_links f R). unfold links. apply in_or_app. left. apply in_map_iff. exists (t, p, tgt). auto. }
  assert (K : forall k u, f ([] ++ firstn (S k) (placed_at t)) <> Some (Link u)).
  { intros k u E. cbn [app] in E. unfold placed_at in E.
    destruct k as [|[|[|k]]]; cbn [firstn] in E.
    - destruct (rd_target f R); congruence.
    - destruct (rd_dirs f R t); congruence.
    - change ["target"; triple_name t; library t] with (placed_at t) in E. destruct (rd_places f R t) as [X|[w X]]; congruence.
    - change ["target"; triple_name t; library t] with (placed_at t) in E. destruct (rd_places f R t) as [X|[w X]]; congruence. }
  assert (D : p = ([] ++ removelast p) ++ [last p ""] /\ tgt = up (length (removelast p)) ++ placed_at t /\
              ~ In ".." p /\ ~ In ".." (placed_at t)).
  { cbn [native_links In] in I'. repeat (destruct I' as [E|I']; [injection E as <- <- <-|]); [| | | | |destruct I'];
      (split; [reflexivity|]); (split; [reflexivity|]); split; vm_compute; intros X;
      repeat (destruct X as [X|X]; [discriminate X|]); destruct X. }
  destruct D as [D1 [D2 [D3 D4]]].
  destruct (link_opens f [] (removelast p) (last p "") (placed_at t) v) as [A B].
  - apply R.
  - rewrite <- D1, <- D2. exact L.
  - rewrite <- D1. exact D3.
  - discriminate.
  - exact D4.
  - rewrite <- D1 in A, B. split; [apply B; exact K|exact A].
Qed.

(** ** Options *)

Lemma letters_spec : forall s o, let o' := letters s o in
  (f_android o' = true <-> f_android o = true \/ has_letter "a" s) /\
  (f_ios o' = true <-> f_ios o = true \/ has_letter "i" s) /\
  (f_linux o' = true <-> f_linux o = true \/ has_letter "l" s) /\
  (f_release o' = true <-> f_release o = true \/ has_letter "r" s) /\
  (f_rosetta o' = true <-> f_rosetta o = true \/ has_letter "w" s).
Proof.
  induction s as [|c s IH]; intros o o'; [subst o'; cbn; intuition|].
  subst o'. cbn [letters has_letter]. destruct (IH (letter c o)) as [A [B [C [D E]]]].
  rewrite A, B, C, D, E. clear A B C D E IH. destruct o as [a i l r w]. unfold letter. cbn [f_android f_ios f_linux f_release f_rosetta].
  destruct (Ascii.eqb_spec c "a") as [->|N1]; [cbn; repeat split; intuition congruence|].
  destruct (Ascii.eqb_spec c "i") as [->|N2]; [cbn; repeat split; intuition congruence|].
  destruct (Ascii.eqb_spec c "l") as [->|N3]; [cbn; repeat split; intuition congruence|].
  destruct (Ascii.eqb_spec c "r") as [->|N4]; [cbn; repeat split; intuition congruence|].
  destruct (Ascii.eqb_spec c "w") as [->|N5]; [cbn; repeat split; intuition congruence|].
  cbn. repeat split; intuition congruence.
Qed.
Lemma getopts_step : forall a s rest o, option_argument a s -> getopts (a :: rest) o = getopts rest (letters s o).
Proof.
  intros a s rest o [-> [N1 N2]]. cbn [Coq.Strings.String.append getopts].
  destruct s as [|c s']; [congruence|]. destruct c as [b0 b1 b2 b3 b4 b5 b6 b7].
  destruct s' as [|c' s'']; [|destruct b0, b1, b2, b3, b4, b5, b6, b7; reflexivity].
  destruct b0, b1, b2, b3, b4, b5, b6, b7; try reflexivity. destruct N2. reflexivity.
Qed.
Lemma getopts_stop : forall a rest o, (~ exists s, option_argument a s) -> getopts (a :: rest) o = o.
Proof.
  intros a rest o N. cbn [getopts]. destruct a as [|c s]; [reflexivity|].
  destruct (Ascii.eqb_spec c "-") as [->|M].
  - destruct s as [|c' s]; [reflexivity|].
    destruct (Ascii.eqb_spec c' "-") as [->|M'].
    + destruct s as [|c'' s]; [reflexivity|]. destruct N. exists (Coq.Strings.String.String "-" (Coq.Strings.String.String c'' s)).
      split; [reflexivity|]. split; discriminate.
    + destruct N. exists (Coq.Strings.String.String c' s). split; [reflexivity|]. split; [discriminate|congruence].
  - destruct c as [b0 b1 b2 b3 b4 b5 b6 b7]; destruct b0, b1, b2, b3, b4, b5, b6, b7; try reflexivity. destruct M. reflexivity.
Qed.
Lemma given_cons : forall a rest s c, option_argument a s -> (given (a :: rest) c <-> has_letter c s \/ given rest c).
Proof.
  intros a rest s c A. split.
  - intros [before [b [u [after [E [F [G H]]]]]]]. destruct before as [|x before].
    + cbn [app] in E. injection E as <- <-. left. destruct A as [A _], G as [G _]. rewrite A in G.
      cbn [Coq.Strings.String.append] in G. injection G as <-. exact H.
    + cbn [app] in E. injection E as <- ->. inversion F; subst. right. exists before, b, u, after. auto.
  - intros [H|[before [b [u [after [-> [F [G H]]]]]]]].
    + exists [], a, s, rest. split; [reflexivity|]. auto.
    + exists (a :: before), b, u, after. split; [reflexivity|]. split; [constructor; [exists s; exact A|exact F]|auto].
Qed.
Lemma given_stop : forall a rest c, (~ exists s, option_argument a s) -> ~ given (a :: rest) c.
Proof.
  intros a rest c N [before [b [u [after [E [F [G H]]]]]]]. destruct before as [|x before]; cbn [app] in E; injection E as -> ->.
  - apply N. exists u. exact G.
  - inversion F; subst. auto.
Qed.
Lemma given_nil : forall c, ~ given [] c.
Proof. intros c [before [b [u [after [E _]]]]]. destruct before; discriminate. Qed.
Lemma option_dec : forall a, (exists s, option_argument a s) \/ ~ exists s, option_argument a s.
Proof.
  intros a. destruct a as [|c s]; [right; intros [s [E _]]; discriminate|].
  destruct (Ascii.eqb_spec c "-") as [->|N].
  - destruct (Coq.Strings.String.string_dec s "") as [->|N1]; [right; intros [s [E [N _]]]; injection E as <-; congruence|].
    destruct (Coq.Strings.String.string_dec s "-") as [->|N2]; [right; intros [s [E [_ N]]]; injection E as <-; congruence|].
    left. exists s. split; [reflexivity|]. auto.
  - right. intros [u [E _]]. injection E as -> _. congruence.
Qed.

(** The flags are those of the option arguments at the beginning (bundled letters allowed,
    others ignored), and those found in the environment; the profile is not taken from there. *)
Theorem C56_options : forall env args, let o := options env args in
  (f_android o = true <-> f_android env = true \/ given args "a") /\
  (f_ios o = true <-> f_ios env = true \/ given args "i") /\
  (f_linux o = true <-> f_linux env = true \/ given args "l") /\
  (f_release o = true <-> given args "r") /\
  (f_rosetta o = true <-> f_rosetta env = true \/ given args "w").
Proof.
  intros env args o. subst o. unfold options.
  assert (G : forall args o, let o' := getopts args o in
    (f_android o' = true <-> f_android o = true \/ given args "a") /\
    (f_ios o' = true <-> f_ios o = true \/ given args "i") /\
    (f_linux o' = true <-> f_linux o = true \/ given args "l") /\
    (f_release o' = true <-> f_release o = true \/ given args "r") /\
    (f_rosetta o' = true <-> f_rosetta o = true \/ given args "w")).
  { clear. induction args as [|a args IH]; intros o o'; subst o'.
    - cbn [getopts]. repeat split; try (intros H; left; exact H); intros [H|H]; try exact H; destruct (given_nil _ H).
    - destruct (option_dec a) as [[s A]|A].
      + rewrite (getopts_step a s args o A). destruct (IH (letters s o)) as [I1 [I2 [I3 [I4 I5]]]].
        destruct (letters_spec s o) as [L1 [L2 [L3 [L4 L5]]]].
        rewrite I1, I2, I3, I4, I5, L1, L2, L3, L4, L5, !(given_cons a args s _ A), !or_assoc. repeat split; auto.
      + rewrite (getopts_stop a args o A).
        repeat split; try (intros H; left; exact H); intros [H|H]; try exact H; destruct (given_stop _ _ _ A H). }
  specialize (G args (mkFlags (f_android env) (f_ios env) (f_linux env) false (f_rosetta env))).
  cbv zeta in G. cbn [f_android f_ios f_linux f_release f_rosetta] in G.
  destruct G as [G1 [G2 [G3 [G4 G5]]]]. split; [exact G1|]. split; [exact G2|]. split; [exact G3|].
  split; [|exact G5]. rewrite G4. split; [intros [H|H]; [discriminate|exact H]|auto].
Qed.
Print Assumptions C56_options.

(** Long options are not refused: their letters are read one by one. *)
Theorem C56_long_options_refuted : forall env,
  let clean_env := mkFlags false false false false false in
  options clean_env ["--release"] = mkFlags true false true true false /\
  options clean_env ["--android"] = mkFlags true true false true false /\
  options env ["ios"; "-i"] = options env [] /\ options env ["-x"; "-?"] = options env [].
Proof. intros [a i l r w]. repeat split; reflexivity. Qed.
Print Assumptions C56_long_options_refuted.

(** ** Native libraries *)

Lemma asked_flags : forall env args host t, is_mac host ->
  (asked env args host t <->
   match t with
   | MacArm | MacIntel => t = host
   | AppleIos => f_ios (options env args) = true
   | AndroidArm64 | AndroidArm => f_android (options env args) = true
   | LinuxGnu => f_linux (options env args) = true
   end).
Proof.
  intros env args host t M. destruct (C56_options env args) as [A [B [C _]]].
  destruct t; cbn [asked]; rewrite ?A, ?B, ?C; try reflexivity; split; congruence.
Qed.
Definition chosen (args : list string) (product : bool -> triple -> string) (t : triple) (v : string) : Prop :=
  (given args "r" -> v = product true t) /\ (~ given args "r" -> v = product false t).
Lemma chosen_product : forall env args product t, chosen args product t (product (f_release (options env args)) t).
Proof.
  intros env args product t. destruct (C56_options env args) as [_ [_ [_ [R _]]]]. split; intros G.
  - rewrite (proj2 R G). reflexivity.
  - destruct (f_release (options env args)); [destruct (G (proj1 R eq_refl))|reflexivity].
Qed.

(** After a run to the end, whatever runs (complete or not) came before, the link of every
    platform asked for opens the library just built, in the profile asked for; the link of
    another platform opens what it opened before, or an empty file. *)
Theorem C56_native_libraries : forall text start f tools product dll runtime host env args f',
  clean text start -> history start f -> toolchain tools product dll runtime -> is_mac host ->
  runs tools false host env args f true f' ->
  forall t link target, In (t, link, target) native_links ->
  (asked env args host t -> exists v, opens f' link v /\ chosen args product t v) /\
  (~ asked env args host t ->
     (forall v, opens f link v -> opens f' link v) /\
     ((forall v, ~ opens f link v) -> opens f' link "")).
Proof.
  intros text start f tools product dll runtime host env args f' C H TC M E t link tgt I'.
  pose proof (history_ready _ _ H (clean_ready _ _ C)) as R.
  pose proof (exec_ready _ _ _ _ _ _ _ TC M f true f' R E) as R'.
  destruct (run_library _ _ _ _ _ _ _ TC M t f true f' R E) as [_ [v [Mv' [_ K]]]].
  destruct (K eq_refl) as [N Old']. rewrite (asked_flags env args host t M).
  split.
  - intros A. apply N in A. subst v. cbn [means] in Mv'. exists (product (f_release (options env args)) t).
    split; [|apply chosen_product]. apply (native_opens f' t link tgt _ R' I'). exact Mv'.
  - intros A. destruct v.
    + specialize (Old' eq_refl). subst t. exfalso. clear -I'. cbn [native_links In] in I'.
      repeat (destruct I' as [I'|I']; [discriminate I'|]). destruct I'.
    + cbn [means] in Mv'. destruct Mv' as [Mv'|[Z _]]; [|discriminate Z]. split.
      * intros v O. apply (native_opens f t link tgt v R I') in O. apply (native_opens f' t link tgt v R' I').
        rewrite Mv', O. reflexivity.
      * intros O. apply (native_opens f' t link tgt "" R' I'). rewrite Mv'.
        destruct (rd_places f R t) as [X|[w X]]; [rewrite X; reflexivity|].
        destruct (O w). apply (native_opens f t link tgt w R I'). exact X.
    + destruct A. apply N. reflexivity.
Qed.
Print Assumptions C56_native_libraries.

(** Stopped or killed at any point, a run leaves under each link what was there, an empty
    file where there was none, or the whole new library: never a part of one. *)
Theorem C56_no_torn_library : forall text start f tools product dll runtime full host env args ok f',
  clean text start -> history start f -> toolchain tools product dll runtime -> is_mac host ->
  runs tools full host env args f ok f' ->
  forall t link target v, In (t, link, target) native_links -> opens f' link v ->
  opens f link v \/ (v = "" /\ forall u, ~ opens f link u) \/ (asked env args host t /\ chosen args product t v).
Proof.
  intros text start f tools product dll runtime full host env args ok f' C H TC M E t link tgt v I' O.
  pose proof (history_ready _ _ H (clean_ready _ _ C)) as R.
  pose proof (exec_ready _ _ _ _ _ _ _ TC M f ok f' R E) as R'.
  destruct (run_library _ _ _ _ _ _ _ TC M t f ok f' R E) as [_ [w [Mv' [N _]]]].
  apply (native_opens f' t link tgt v R' I') in O.
  assert (F : opens f link v <-> f (placed_at t) = Some (File v)) by (apply (native_opens f t link tgt v R I')).
  destruct w; cbn [means] in Mv'.
  - left. apply F. congruence.
  - destruct Mv' as [Mv'|[_ Mv']]; [|left; apply F; congruence].
    destruct (rd_places f R t) as [X|[w X]]; rewrite X in Mv'; cbn [touched] in Mv'.
    + right. left. split; [congruence|]. intros u K. apply (native_opens f t link tgt u R I') in K. congruence.
    + left. apply F. congruence.
  - right. right. split; [apply (asked_flags env args host t M); apply N; reflexivity|].
    assert (v = product (f_release (options env args)) t) by congruence. subst v. apply chosen_product.
Qed.
Print Assumptions C56_no_torn_library.

(** ** Assemblies *)

Lemma managed_shape : forall k n link tgt, In (k, n, link, tgt) managed_links ->
  exists deep, link = (["demos"; "unity_states"] ++ deep) ++ [last link ""] /\
    tgt = up (length deep) ++ ["cs"; "bin"; k; n] /\ ~ In ".." link.
Proof.
  intros k n link tgt I'. cbn [managed_links In] in I'.
  exists (skipn 2 (removelast link)).
  repeat (destruct I' as [E|I']; [injection E as <- <- <- <-|]); [| | | | | |destruct I'];
    (split; [reflexivity|]); (split; [reflexivity|]); vm_compute; intros X;
      repeat (destruct X as [X|X]; [discriminate X|]); destruct X.
Qed.

(** The script never makes the links of the assemblies work: they lead to cs/bin, and
    the assemblies are put into cs/src/bin. *)
Theorem C56_managed_links_dangle_refuted : forall text start f,
  clean text start -> history start f ->
  forall kind name link target, In (kind, name, link, target) managed_links -> forall v, ~ opens f link v.
Proof.
  intros text start f C H k n link tgt I' v [q [Q E]].
  pose proof (history_ready _ _ H (clean_ready _ _ C)) as R.
  assert (L : f link = Some (Link tgt)).
  { apply (rd_links f R). unfold links. apply in_or_app. right. apply in_or_app. left. apply in_map_iff.
    exists (k, n, link, tgt). auto. }
  destruct (managed_shape k n link tgt I') as [deep [D1 [D2 D3]]].
  pose proof (reaches_to_link f (rd_tree f R) (["demos"; "unity_states"] ++ deep) [] (last link "") tgt q) as T.
  cbn [app] in T. change ("demos" :: "unity_states" :: deep) with (["demos"; "unity_states"] ++ deep) in T.
  change ("demos" :: "unity_states" :: deep ++ [last link ""]) with ((["demos"; "unity_states"] ++ deep) ++ [last link ""]) in T.
  rewrite <- D1 in T. apply (T L D3) in Q. rewrite D2 in Q.
  apply (proj1 (reaches_ups f deep ["demos"; "unity_states"] _ q)) in Q.
  inversion Q; subst; try congruence; cbn [app] in *.
  - match goal with K : reaches f _ ("bin" :: _) q |- _ => inversion K; subst; cbn [app] in *; rewrite ?(rd_cs_bin f R) in *; try discriminate end.
  - destruct (tree_above f (rd_tree f R) ["src"] ["demos"; "unity_states"; "cs"]) as [X|X]; try discriminate.
    + cbn [app]. rewrite (rd_demo f R). discriminate.
    + congruence.
Qed.
Print Assumptions C56_managed_links_dangle_refuted.

(** Where the assemblies are instead, after a run to the end; and CppSharp's own assembly,
    whose link is right. *)
Definition packs (out : list string) (ios : bool) (c : command) : bool :=
  match c with
  | Tool d (DotnetBuild out' ios') => (peqb d demo_dir && peqb out' out && Bool.eqb ios' ios)%bool
  | _ => false
  end.
Definition tests (c : command) : bool :=
  match c with Tool d DotnetTest => peqb d ["client"; "cs"; "tests"] | _ => false end.
Definition runtime_dll : path := ["client"; "cs"; "tests"; "bin"; "Debug"; "net6.0"; "CppSharp.Runtime.dll"].
Definition makes_these (o : flags) (host : triple) : bool :=
  forallb (fun n => (last_made (packs ["bin"; "main"] false) (demo_dir ++ ["bin"; "main"; n]) (script o host) &&
                    (if f_ios o then last_made (packs ["bin"; "ios"] true) (demo_dir ++ ["bin"; "ios"; n]) (script o host) else true))%bool)
    ["client.dll"; "rsharp.dll"; "unity_states.dll"] &&
  last_made tests runtime_dll (script o host).
Lemma makes_these_all : forall o host, is_mac host -> makes_these o host = true.
Proof. apply every_spec. vm_compute. reflexivity. Qed.

Lemma packs_made : forall tools full product dll runtime, toolchain tools product dll runtime ->
  forall out ios n c f f', In n ["client.dll"; "rsharp.dll"; "unity_states.dll"] -> packs out ios c = true ->
  step tools full f c true f' -> f' (demo_dir ++ out ++ [n]) = Some (File (dll ios n)).
Proof.
  intros tools full product dll runtime TC out ios n c f f' I' P H.
  destruct c as [d t| | | | |]; try discriminate P. destruct t; try discriminate P. cbn [packs] in P.
  rewrite !andb_true_iff, !peqb_true in P. destruct P as [[-> ->] P]. apply Bool.eqb_prop in P. subst.
  inversion H; subst. eapply (tc_dll _ _ _ _ TC); eauto.
Qed.
Theorem C56_assemblies_are_elsewhere : forall tools product dll runtime full host env args f f',
  toolchain tools product dll runtime -> is_mac host -> runs tools full host env args f true f' ->
  forall name, In name ["client.dll"; "rsharp.dll"; "unity_states.dll"] ->
  f' ["demos"; "unity_states"; "cs"; "src"; "bin"; "main"; name] = Some (File (dll false name)) /\
  (f_ios env = true \/ given args "i" ->
   f' ["demos"; "unity_states"; "cs"; "src"; "bin"; "ios"; name] = Some (File (dll true name))).
Proof.
  intros tools product dll runtime full host env args f f' TC M E n I'.
  pose proof (makes_these_all (options env args) host M) as K. unfold makes_these in K.
  apply andb_true_iff in K. destruct K as [K _]. rewrite forallb_forall in K. specialize (K n I').
  apply andb_true_iff in K. destruct K as [K1 K2]. split.
  - eapply (exec_last_made _ _ _ _ _ TC); [|exact K1|exact E]. intros c g g' P S'.
    exact (packs_made _ _ _ _ _ TC _ _ _ _ _ _ I' P S').
  - intros A. destruct (C56_options env args) as [_ [B _]]. rewrite (proj2 B A) in K2.
    eapply (exec_last_made _ _ _ _ _ TC); [|exact K2|exact E]. intros c g g' P S'.
    exact (packs_made _ _ _ _ _ TC _ _ _ _ _ _ I' P S').
Qed.
Print Assumptions C56_assemblies_are_elsewhere.

Theorem C56_runtime_link_opens : forall text start f tools product dll runtime full host env args f',
  clean text start -> history start f -> toolchain tools product dll runtime -> is_mac host ->
  runs tools full host env args f true f' -> opens f' (fst runtime_link) runtime.
Proof.
  intros text start f tools product dll runtime full host env args f' C H TC M E.
  pose proof (history_ready _ _ H (clean_ready _ _ C)) as R.
  pose proof (exec_ready _ _ _ _ _ _ _ TC M f true f' R E) as R'.
  pose proof (makes_these_all (options env args) host M) as K. unfold makes_these in K.
  apply andb_true_iff in K. destruct K as [_ K].
  assert (X : f' runtime_dll = Some (File runtime)).
  { eapply (exec_last_made _ _ _ _ _ TC); [|exact K|exact E]. intros c g g' P S'.
    destruct c as [d t| | | | |]; try discriminate P. destruct t; try discriminate P. cbn [tests] in P.
    apply peqb_true in P. subst d. inversion S'; subst. exact (tc_test _ _ _ _ TC _ _ _ ltac:(eassumption)). }
  assert (L : f' (fst runtime_link) = Some (Link (snd runtime_link))).
  { apply (rd_links f' R'). unfold links. apply in_or_app. right. apply in_or_app. right. left. reflexivity. }
  destruct (link_opens f' [] plugins "CppSharp.Runtime.dll" runtime_dll runtime) as [A _].
  - apply R'.
  - exact L.
  - vm_compute. intros Y. repeat (destruct Y as [Y|Y]; [discriminate Y|]). destruct Y.
  - discriminate.
  - vm_compute. intros Y. repeat (destruct Y as [Y|Y]; [discriminate Y|]). destruct Y.
  - exact (A X).
Qed.
Print Assumptions C56_runtime_link_opens.

(** ** The project file of the binding generator *)

Definition in_place (text : string) (f : fs) : Prop :=
  f ["client"; "codegen_pinvoke"; "codegen.csproj"] = Some (File text) /\
  f ["client"; "codegen_pinvoke"; "codegen60.csproj"] = None /\
  f ["client"; "codegen_pinvoke"; "codegen61.csproj"] = None.
Definition renamed60 (text : string) (f : fs) : Prop :=
  f ["client"; "codegen_pinvoke"; "codegen.csproj"] = None /\
  f ["client"; "codegen_pinvoke"; "codegen60.csproj"] = Some (File text) /\
  f ["client"; "codegen_pinvoke"; "codegen61.csproj"] = None.
Definition renamed61 (text : string) (f : fs) : Prop :=
  f ["client"; "codegen_pinvoke"; "codegen.csproj"] = None /\
  f ["client"; "codegen_pinvoke"; "codegen60.csproj"] = None /\
  f ["client"; "codegen_pinvoke"; "codegen61.csproj"] = Some (File text).
Lemma file_at_place : forall text f, file_at text project f <-> in_place text f.
Proof.
  intros text f. split.
  - intros [_ [E O]]. split; [exact E|]. split; apply O; try discriminate; cbn; auto.
  - intros [A [B C]]. split; [left; reflexivity|]. split; [exact A|].
    intros q [<-|[<-|[<-|[]]]] N; [congruence|exact B|exact C].
Qed.
Lemma file_at_60 : forall text f, file_at text project60 f <-> renamed60 text f.
Proof.
  intros text f. split.
  - intros [_ [E O]]. split; [apply O; [cbn; auto|discriminate]|]. split; [exact E|]. apply O; [cbn; auto|discriminate].
  - intros [A [B C]]. split; [right; left; reflexivity|]. split; [exact B|].
    intros q [<-|[<-|[<-|[]]]] N; [exact A|congruence|exact C].
Qed.
Lemma file_at_61 : forall text f, file_at text project61 f <-> renamed61 text f.
Proof.
  intros text f. split.
  - intros [_ [E O]]. split; [apply O; [cbn; auto|discriminate]|]. split; [apply O; [cbn; auto|discriminate]|exact E].
  - intros [A [B C]]. split; [right; right; left; reflexivity|]. split; [exact C|].
    intros q [<-|[<-|[<-|[]]]] N; [exact A|exact B|congruence].
Qed.
Lemma clean_in_place : forall text f, clean text f -> in_place text f.
Proof.
  intros text f C. split; [apply C|].
  split; match goal with |- ?x = None => destruct x eqn:E; [|reflexivity] end;
    exfalso; [assert (X : "codegen60.csproj" = "codegen.csproj")|assert (X : "codegen61.csproj" = "codegen.csproj")];
    try discriminate X; apply (clean_alone _ _ C); try congruence; [exists "codegen60"|exists "codegen61"]; reflexivity.
Qed.

Definition about_all (o : flags) (host : triple) : bool := forallb about (script o host).
Lemma about_all_all : forall o host, is_mac host -> about_all o host = true.
Proof. apply every_spec. vm_compute. reflexivity. Qed.
Definition trails (o : flags) (host : triple) : bool :=
  (let here l p := forallb (peqb l) (trail (script o host) p) in
   (if f_rosetta o then true else here project project) &&
   (if f_ios o then true else forallb (fun q => negb (peqb q project61)) (trail (script o host) project)) &&
   here project60 project60 && here project61 project61 &&
   match arrives (script o host) project with Some l => peqb l project | None => false end &&
   match arrives (script o host) project60 with Some _ => negb (f_rosetta o) | None => f_rosetta o end &&
   match arrives (script o host) project61 with Some _ => negb (f_rosetta o) | None => f_rosetta o end)%bool.
Lemma trails_all : forall o host, is_mac host -> trails o host = true.
Proof. apply every_spec. vm_compute. reflexivity. Qed.

(** It is never lost: at any point where a run stops, it stands under one of three names.
    After a run to the end, and after any run without -w, it is where it was. *)
Theorem C56_project_file_is_never_lost : forall text tools product dll runtime full host env args f ok f',
  toolchain tools product dll runtime -> is_mac host -> in_place text f ->
  runs tools full host env args f ok f' ->
  (in_place text f' \/ renamed60 text f' \/ renamed61 text f') /\
  (ok = true -> in_place text f') /\
  (f_rosetta env = false -> ~ given args "w" -> in_place text f').
Proof.
  intros text tools product dll runtime full host env args f ok f' TC M P E.
  destruct (exec_about _ _ _ _ _ text TC _ _ _ _ project (about_all_all _ host M) E) as [l [A [B C]]];
    [apply file_at_place; exact P|].
  pose proof (trails_all (options env args) host M) as T. unfold trails in T. cbv zeta in T.
  rewrite !andb_true_iff in T. destruct T as [[[[[[T1 _] _] _] T5] _] _].
  assert (Pl : l = project -> in_place text f') by (intros ->; apply file_at_place; exact A).
  split; [|split].
  - destruct (proj1 A) as [<-|[<-|[<-|[]]]].
    + left. apply file_at_place. exact A.
    + right. left. apply file_at_60. exact A.
    + right. right. apply file_at_61. exact A.
  - intros ->. specialize (C eq_refl). rewrite C in T5. apply peqb_true in T5. auto.
  - intros W1 W2. destruct (C56_options env args) as [_ [_ [_ [_ W]]]].
    destruct (f_rosetta (options env args)); [destruct (proj1 W eq_refl); congruence|].
    rewrite forallb_forall in T1. specialize (T1 l B). apply peqb_true in T1. auto.
Qed.
Print Assumptions C56_project_file_is_never_lost.

(** With -w, every run that could come to its end can also be stopped (by a program that
    fails, or a kill) with the file renamed; in the second part, if iOS is asked for. *)
Theorem C56_interrupted_runs_rename_refuted : forall text tools product dll runtime full host env args f f',
  toolchain tools product dll runtime -> is_mac host -> in_place text f ->
  f_rosetta env = true \/ given args "w" ->
  runs tools full host env args f true f' ->
  (exists g, runs tools full host env args f false g /\ renamed60 text g) /\
  (f_ios env = true \/ given args "i" -> exists g, runs tools full host env args f false g /\ renamed61 text g).
Proof.
  intros text tools product dll runtime full host env args f f' TC M P W E.
  destruct (C56_options env args) as [_ [I' [_ [_ W']]]]. apply W' in W. clear W'. rewrite <- I'. clear I'.
  unfold runs in *. set (o := options env args) in *. clearbody o. clear env args.
  pose proof (about_all_all o host M) as AB. unfold about_all in AB.
  assert (Stop : forall a b l, script o host = a ++ b -> arrives a project = Some l ->
    exists g, exec tools full (script o host) f false g /\ file_at text l g).
  { intros a b l X Y. rewrite X in *. destruct (exec_app _ _ _ _ _ _ _ E) as [[Z _]|[g [E1 _]]]; [discriminate|].
    rewrite forallb_app in AB. apply andb_true_iff in AB. destruct AB as [AB _].
    destruct (exec_about _ _ _ _ _ text TC _ _ _ _ project AB E1) as [l' [A [_ C]]]; [apply file_at_place; exact P|].
    assert (l' = l) by (specialize (C eq_refl); congruence). subst l'.
    exists g. split; [|exact A]. eapply exec_join; [exact E1|]. apply exec_killed. }
  assert (Split : forall c, In c (script o host) -> exists a b, script o host = (a ++ [c]) ++ b).
  { intros c I'. destruct (in_split _ _ I') as [a [b X]]. exists a, b. rewrite X, <- app_assoc. reflexivity. }
  destruct o as [fa fi fl fr fw]. cbn [f_rosetta f_ios] in *. subst fw.
  split.
  - destruct (Stop (build_host (mkFlags fa fi fl fr true) host ++ placeholders ++ cross_compile (mkFlags fa fi fl fr true) host ++ [Mv project project60])
      ([Rsync (placed_at host) ["target"; library host]; Tool pinvoke_dir DotnetRestore; Tool pinvoke_dir (DotnetRun false)] ++
       [Mv project60 project] ++
       [Tool ["client"; "cs"; "tests"] DotnetTest; Tool demo_dir (DotnetBuild ["bin"; "main"] false)] ++ bindings_ios (mkFlags fa fi fl fr true))
      project60) as [g [G1 G2]].
    + unfold script, bindings. cbn [f_rosetta when]. rewrite <- !app_assoc. reflexivity.
    + destruct fa, fi, fl, M as [-> | ->]; reflexivity.
    + exists g. split; [exact G1|]. apply file_at_60. exact G2.
  - intros ->.
    destruct (Stop (build_host (mkFlags fa true fl fr true) host ++ placeholders ++ cross_compile (mkFlags fa true fl fr true) host ++
      bindings (mkFlags fa true fl fr true) host ++ [Mv project project61])
      ([Tool pinvoke_dir (DotnetRun true)] ++ [Mv project61 project] ++ [Tool demo_dir (DotnetBuild ["bin"; "ios"] true)])
      project61) as [g [G1 G2]].
    + unfold script, bindings_ios. cbn [f_rosetta f_ios when]. rewrite <- !app_assoc. reflexivity.
    + destruct fa, fl, M as [-> | ->]; reflexivity.
    + exists g. split; [exact G1|]. apply file_at_61. exact G2.
Qed.
Print Assumptions C56_interrupted_runs_rename_refuted.

(** And then no number of further runs, with whatever options, puts it back; with -w none
    of them comes to its end. *)
Theorem C56_renamed_for_ever : forall text f g, history f g ->
  (renamed60 text f -> renamed60 text g) /\ (renamed61 text f -> renamed61 text g).
Proof.
  intros text f g H. rewrite <- !file_at_60, <- !file_at_61.
  induction H as [|tools product dll runtime full host env args g ok h H IH TC M E]; [auto|].
  pose proof (trails_all (options env args) host M) as T. unfold trails in T. cbv zeta in T.
  rewrite !andb_true_iff, !forallb_forall in T. destruct T as [[[[[_ T3] T4] _] _] _].
  split; intros F; [apply (proj1 IH) in F|apply (proj2 IH) in F];
    destruct (exec_about _ _ _ _ _ text TC _ _ _ _ _ (about_all_all _ host M) E F) as [l [A [B _]]];
    [specialize (T3 l B); apply peqb_true in T3|specialize (T4 l B); apply peqb_true in T4]; subst l; exact A.
Qed.
Print Assumptions C56_renamed_for_ever.
Theorem C56_renamed_stops_every_run : forall text tools product dll runtime full host env args f f',
  toolchain tools product dll runtime -> is_mac host -> renamed60 text f \/ renamed61 text f ->
  f_rosetta env = true \/ given args "w" -> ~ runs tools full host env args f true f'.
Proof.
  intros text tools product dll runtime full host env args f f' TC M R W E.
  destruct (C56_options env args) as [_ [_ [_ [_ W']]]]. apply W' in W.
  pose proof (trails_all (options env args) host M) as T. unfold trails in T. cbv zeta in T.
  rewrite !andb_true_iff in T. destruct T as [[_ T6] T7]. rewrite W in T6, T7.
  destruct R as [R|R]; [apply file_at_60 in R|apply file_at_61 in R];
    destruct (exec_about _ _ _ _ _ text TC _ _ _ _ _ (about_all_all _ host M) E R) as [l [_ [_ C]]];
    rewrite (C eq_refl) in *; discriminate.
Qed.
Print Assumptions C56_renamed_stops_every_run.

(** ** Restoring the file by hand (git checkout) after an interrupted run *)

Lemma two_projects : forall tools product dll runtime, toolchain tools product dll runtime ->
  forall t f f' n m, (t = DotnetRestore \/ exists ios, t = DotnetRun ios) -> n <> m ->
  is_project n -> is_project m -> f (pinvoke_dir ++ [n]) <> None -> f (pinvoke_dir ++ [m]) <> None ->
  ~ tools pinvoke_dir t f true f'.
Proof.
  intros tools product dll runtime TC t f f' n m T N P Q A B H.
  destruct (tc_one _ _ _ _ TC _ _ _ _ H T) as [x [_ [_ U]]].
  pose proof (U n P A). pose proof (U m Q B). congruence.
Qed.
(** The commands before the bindings, and what they do to the three names. *)
Definition before_bindings (o : flags) (host : triple) : list command :=
  build_host o host ++ placeholders ++ cross_compile o host.
Definition before_leaves (o : flags) (host : triple) : bool :=
  forallb (fun p => forallb (leaves p) (before_bindings o host ++ [Rsync (placed_at host) ["target"; library host]])) three.
Lemma before_leaves_all : forall o host, is_mac host -> before_leaves o host = true.
Proof. apply every_spec. vm_compute. reflexivity. Qed.
Lemma script_split : forall o host, script o host =
  before_bindings o host ++ when (f_rosetta o) [Mv project project60] ++
  ([Rsync (placed_at host) ["target"; library host]] ++ Tool pinvoke_dir DotnetRestore ::
   ([Tool pinvoke_dir (DotnetRun false)] ++ when (f_rosetta o) [Mv project60 project] ++
    [Tool ["client"; "cs"; "tests"] DotnetTest; Tool demo_dir (DotnetBuild ["bin"; "main"] false)]) ++ bindings_ios o).
Proof. intros o host. unfold script, before_bindings, bindings. rewrite <- !app_assoc. reflexivity. Qed.
Lemma exec_before : forall tools full product dll runtime o host, toolchain tools product dll runtime -> is_mac host ->
  forall f f', exec tools full (script o host) f true f' ->
  exists g h, (forall p, In p three -> g p = f p) /\
    (if f_rosetta o then mv project project60 g true h else h = g) /\
    exists h' k, (forall p, In p three -> h' p = h p) /\ tools pinvoke_dir DotnetRestore h' true k /\
    exec tools full ([Rsync (placed_at host) ["target"; library host]] ++ Tool pinvoke_dir DotnetRestore ::
     ([Tool pinvoke_dir (DotnetRun false)] ++ when (f_rosetta o) [Mv project60 project] ++
      [Tool ["client"; "cs"; "tests"] DotnetTest; Tool demo_dir (DotnetBuild ["bin"; "main"] false)]) ++ bindings_ios o)
      h true f'.
Proof.
  intros tools full product dll runtime o host TC M f f' E. rewrite script_split in E.
  pose proof (before_leaves_all o host M) as L. unfold before_leaves in L. rewrite forallb_forall in L.
  destruct (exec_app _ _ _ _ _ _ _ E) as [[X _]|[g [E1 E2]]]; [discriminate|]. clear E.
  destruct (exec_app _ _ _ _ _ _ _ E2) as [[X _]|[h [E3 E4]]]; [discriminate|]. clear E2.
  exists g, h. split; [|split].
  - intros p P. specialize (L p P). rewrite forallb_app in L. apply andb_true_iff in L. destruct L as [L _].
    exact (exec_leaves _ _ _ _ _ TC _ _ _ _ _ L E1).
  - destruct (f_rosetta o); cbn [when] in E3.
    + inversion E3; subst. match goal with X : exec _ _ [] _ _ _ |- _ => inversion X; subst end.
      match goal with X : step _ _ _ _ _ _ |- _ => inversion X; subst end. assumption.
    + inversion E3; subst. reflexivity.
  - destruct (exec_app _ _ _ _ _ _ _ E4) as [[X _]|[h' [E5 E6]]]; [discriminate|].
    inversion E6; subst. match goal with X : step _ _ _ (Tool _ _) _ _ |- _ => inversion X; subst end.
    match goal with X : tools pinvoke_dir DotnetRestore _ true ?k |- _ => exists h', k; split; [|split; [exact X|exact E4]] end.
    intros p P. specialize (L p P). rewrite forallb_app in L. apply andb_true_iff in L. destruct L as [_ L].
    exact (exec_leaves _ _ _ _ _ TC _ _ _ _ _ L E5).
Qed.

(** With both the restored file and a copy left over from the first part, only a run with -w
    can come to its end, and it cleans up; with a copy left over from the second part no
    run can. *)
Theorem C56_restored_by_hand : forall text old tools product dll runtime full host env args f f',
  toolchain tools product dll runtime -> is_mac host -> runs tools full host env args f true f' ->
  f ["client"; "codegen_pinvoke"; "codegen.csproj"] = Some (File text) ->
  (f ["client"; "codegen_pinvoke"; "codegen60.csproj"] = Some (File old) ->
   f ["client"; "codegen_pinvoke"; "codegen61.csproj"] = None ->
   (f_rosetta env = true \/ given args "w") /\ in_place text f') /\
  f ["client"; "codegen_pinvoke"; "codegen61.csproj"] <> Some (File old).
Proof.
  intros text old tools product dll runtime full host env args f f' TC M E P.
  assert (J : is_project "codegen.csproj" /\ is_project "codegen60.csproj" /\ is_project "codegen61.csproj")
    by (split; [exists "codegen"|split; [exists "codegen60"|exists "codegen61"]]; reflexivity).
  destruct J as [J0 [J1 J2]].
  assert (K0 : In project three) by (cbn; auto). assert (K1 : In project60 three) by (cbn; auto).
  assert (K2 : In project61 three) by (cbn; auto).
  assert (D0 : project <> project60 /\ project <> project61 /\ project60 <> project61)
    by (split; [discriminate|split; discriminate]). destruct D0 as [D0 [D1 D2]].
  destruct (C56_options env args) as [_ [_ [_ [_ W]]]]. rewrite <- W. clear W.
  destruct (exec_before tools full product dll runtime (options env args) host TC M f f' E) as [g [h [G [H [h' [k [H' [T E']]]]]]]].
  assert (P' : g project = Some (File text)) by (rewrite (G _ K0); exact P). split.
  - intros Q R. destruct (f_rosetta (options env args)) eqn:W.
    + split; [reflexivity|]. inversion H; subst. assert (n = File text) by congruence. subst n.
      assert (F : file_at text project60 (put project60 (Some (File text)) (put project None g))).
      { apply file_at_60. split; [|split].
        - change ["client"; "codegen_pinvoke"; "codegen.csproj"] with project. rewrite put_other by congruence. apply put_same.
        - apply put_same.
        - change ["client"; "codegen_pinvoke"; "codegen61.csproj"] with project61. rewrite !put_other by congruence.
          rewrite (G _ K2). exact R. }
      pose proof (about_all_all (options env args) host M) as AB. unfold about_all in AB. rewrite script_split in AB.
      rewrite forallb_app, forallb_app in AB. rewrite !andb_true_iff in AB. destruct AB as [_ [_ AB]]. rewrite W in AB.
      destruct (exec_about _ _ _ _ _ text TC _ _ _ _ _ AB E' F) as [l [A [_ B]]]. specialize (B eq_refl).
      apply file_at_place. assert (l = project); [|subst l; exact A].
      clear -B W. destruct (options env args) as [fa [] fl fr fw]; cbn [f_rosetta] in W; subst fw; vm_compute in B; injection B as <-; reflexivity.
    + subst h. exfalso. refine (two_projects _ _ _ _ TC DotnetRestore h' k "codegen.csproj" "codegen60.csproj"
        (or_introl eq_refl) ltac:(discriminate) J0 J1 _ _ T); change (pinvoke_dir ++ ["codegen.csproj"]) with project;
        change (pinvoke_dir ++ ["codegen60.csproj"]) with project60.
      * rewrite (H' _ K0). congruence.
      * rewrite (H' _ K1), (G _ K1). change (f project60 <> None). unfold project60, pinvoke_dir. cbn [app]. congruence.
  - intros R. assert (R' : g project61 = Some (File old)) by (rewrite (G _ K2); exact R).
    destruct (f_rosetta (options env args)) eqn:W.
    + inversion H; subst. refine (two_projects _ _ _ _ TC DotnetRestore h' k "codegen60.csproj" "codegen61.csproj"
        (or_introl eq_refl) ltac:(discriminate) J1 J2 _ _ T); change (pinvoke_dir ++ ["codegen60.csproj"]) with project60;
        change (pinvoke_dir ++ ["codegen61.csproj"]) with project61.
      * rewrite (H' _ K1), put_same. discriminate.
      * rewrite (H' _ K2). rewrite !put_other by congruence. congruence.
    + subst h. refine (two_projects _ _ _ _ TC DotnetRestore h' k "codegen.csproj" "codegen61.csproj"
        (or_introl eq_refl) ltac:(discriminate) J0 J2 _ _ T); change (pinvoke_dir ++ ["codegen.csproj"]) with project;
        change (pinvoke_dir ++ ["codegen61.csproj"]) with project61.
      * rewrite (H' _ K0). congruence.
      * rewrite (H' _ K2). congruence.
Qed.
Print Assumptions C56_restored_by_hand.

(** ** Nothing else *)

(** What the script and its programs may change. *)
Definition own : list zone :=
  [Only ["Cargo.lock"]; Within ["target"]] ++ generated ++
  flat_map (fun q => [Within (q ++ ["bin"]); Within (q ++ ["obj"])]) projects ++
  map Only [ ["client"; "codegen_pinvoke"; "codegen.csproj"]; ["client"; "codegen_pinvoke"; "codegen60.csproj"];
             ["client"; "codegen_pinvoke"; "codegen61.csproj"] ].
Definition part (z : zone) : bool :=
  match z with
  | Only q => existsb (fun w => touches w q) own
  | Within d => existsb (fun w => match w with Only _ => false | Within d' => pre d' d end) own
  end.
Lemma touches_zone : forall z p, touches z p = true -> in_zone z p.
Proof.
  intros [q|d] p; cbn [in_zone touches]; [apply peqb_true|].
  rewrite andb_true_iff, negb_true_iff, peqb_false, pre_true. intros [[[|c r] ->] N]; [rewrite app_nil_r in N; congruence|].
  exists c, r. reflexivity.
Qed.
Lemma part_spec : forall z p, part z = true -> in_zone z p -> exists w, In w own /\ in_zone w p.
Proof.
  intros [q|d] p H Z'; cbn [part] in H; apply existsb_exists in H; destruct H as [w [W H]].
  - cbn [in_zone] in Z'. subst q. exists w. split; [exact W|]. apply touches_zone. exact H.
  - destruct w as [|d']; [discriminate|]. exists (Within d'). split; [exact W|].
    apply pre_true in H. destruct H as [r ->]. destruct Z' as [c [s ->]]. cbn [in_zone].
    rewrite <- app_assoc. destruct r as [|x r]; [exists c, s; reflexivity|exists x, (r ++ c :: s); reflexivity].
Qed.
Definition within_own (c : command) : bool :=
  match c with
  | Tool d t => forallb part (zones d t)
  | Rsync _ d => part (Only d)
  | MkdirTouch d n => part (Only (d ++ [n]))
  | Mkdir _ => true
  | Touch q => part (Only q)
  | Mv a b => (part (Only a) && part (Only b))%bool
  end.
Definition own_all (o : flags) (host : triple) : bool := forallb within_own (script o host).
Lemma own_all_all : forall o host, is_mac host -> own_all o host = true.
Proof. apply every_spec. vm_compute. reflexivity. Qed.
Lemma own_spares : forall p c, (forall z, In z own -> ~ in_zone z p) -> within_own c = true -> spares p c = true.
Proof.
  intros p c N W.
  assert (K : forall q, part (Only q) = true -> negb (peqb p q) = true).
  { intros q Q. apply negb_true_iff, peqb_false. intros ->. destruct (part_spec (Only q) q Q eq_refl) as [w [A B]]. exact (N w A B). }
  destruct c; cbn [within_own spares] in *; auto.
  - unfold calm. apply forallb_forall. intros z Z'. rewrite forallb_forall in W. specialize (W z Z').
    apply negb_true_iff. destruct (touches z p) eqn:T; [|reflexivity].
    destruct (part_spec z p W (touches_zone _ _ T)) as [w [A B]]. destruct (N w A B).
  - apply andb_true_iff in W. destruct W. rewrite !K by assumption. reflexivity.
Qed.
(** Whatever exists outside target/, generated sources, bin/ and obj/ of the C# projects,
    Cargo.lock and the renamed project is left as it is, however the run ends; and nothing
    but directories is made outside. *)
Theorem C56_nothing_else : forall tools product dll runtime full host env args f ok f',
  toolchain tools product dll runtime -> is_mac host -> runs tools full host env args f ok f' ->
  forall p, (forall z, In z own -> ~ in_zone z p) ->
  f' p = f p \/ (f p = None /\ f' p = Some Dir).
Proof.
  intros tools product dll runtime full host env args f ok f' TC M E p N.
  eapply (exec_spares _ _ _ _ _ TC); [|exact E]. apply forallb_forall. intros c C.
  pose proof (own_all_all (options env args) host M) as A. unfold own_all in A. rewrite forallb_forall in A.
  apply own_spares; [exact N|]. exact (A c C).
Qed.
Print Assumptions C56_nothing_else.

(** ** The hypotheses are met: a toolchain and a checkout with which the script runs to its
    end, with every option *)

Definition is_some {A : Type} (o : option A) : bool := match o with Some _ => true | None => false end.
Definition no_env : flags := mkFlags false false false false false.
Theorem C56_met : forall host, is_mac host -> exists f',
  clean "<Project/>" ex_fs /\ toolchain ex_tools ex_product ex_dll "runtime" /\
  runs ex_tools false host no_env ["-al"; "-irw"] ex_fs true f' /\
  asked no_env ["-al"; "-irw"] host LinuxGnu /\ given ["-al"; "-irw"] "r" /\ given ["-al"; "-irw"] "w" /\
  opens f' (plugins ++ ["Constellation"; "Linux"; "libunity_states.so"]) "releasex86_64-unknown-linux-gnu" /\
  opens f' (plugins ++ ["Constellation"; "Mac"; "aarch64"; "libunity_states.dylib"])
    (match host with MacArm => "releaseaarch64-apple-darwin" | _ => "" end).
Proof.
  intros host M.
  assert (P : is_some (plays false (script (options no_env ["-al"; "-irw"]) host) ex_fs) = true)
    by (destruct M as [-> | ->]; vm_compute; reflexivity).
  destruct (plays false (script (options no_env ["-al"; "-irw"]) host) ex_fs) as [f'|] eqn:E; [|discriminate].
  apply plays_spec in E; [|exact ex_tidy]. exists f'.
  assert (G : forall c, has_letter c "al" \/ has_letter c "irw" -> given ["-al"; "-irw"] c).
  { intros c [H|H].
    - exists [], "-al", "al", ["-irw"]. split; [reflexivity|]. split; [constructor|].
      split; [split; [reflexivity|split; discriminate]|exact H].
    - exists ["-al"], "-irw", "irw", []. split; [reflexivity|].
      split; [constructor; [exists "al"; split; [reflexivity|split; discriminate]|constructor]|].
      split; [split; [reflexivity|split; discriminate]|exact H]. }
  split; [exact ex_clean|]. split; [exact ex_toolchain|]. split; [exact E|].
  assert (A : asked no_env ["-al"; "-irw"] host LinuxGnu) by (right; apply G; left; cbn; auto).
  assert (R : given ["-al"; "-irw"] "r") by (apply G; right; cbn; auto).
  assert (W : given ["-al"; "-irw"] "w") by (apply G; right; cbn; auto).
  split; [exact A|]. split; [exact R|]. split; [exact W|].
  pose proof (C56_native_libraries _ _ _ _ _ _ _ _ _ _ _ ex_clean (history_none ex_fs) ex_toolchain M E) as N.
  split.
  - destruct (proj1 (N LinuxGnu _ _ ltac:(left; reflexivity)) A) as [v [O [V _]]].
    rewrite (V R) in O. exact O.
  - destruct (N MacArm _ _ ltac:(right; left; reflexivity)) as [N1 N2]. destruct M as [-> | ->].
    + destruct (N1 eq_refl) as [v [O [V _]]]. rewrite (V R) in O. exact O.
    + apply N2; [discriminate|]. intros v O.
      apply (native_opens ex_fs MacArm _ _ v (clean_ready _ _ ex_clean) ltac:(right; left; reflexivity)) in O.
      vm_compute in O. discriminate.
Qed.
Print Assumptions C56_met.

(** A failing mkdir does not stop the script (it stands to the left of &&): a run can come to
    its end although a link still leads nowhere. *)
Theorem C56_placeholder_may_be_missing_refuted : exists f',
  clean "<Project/>" ex_fs /\ toolchain ex_tools ex_product ex_dll "runtime" /\
  runs ex_tools true MacArm no_env [] ex_fs true f' /\ ~ asked no_env [] MacArm LinuxGnu /\
  forall v, ~ opens f' (plugins ++ ["Constellation"; "Linux"; "libunity_states.so"]) v.
Proof.
  assert (P : match plays true (script (options no_env []) MacArm) ex_fs with
              | Some f' => negb (present f' (placed_at LinuxGnu)) | None => false end = true) by (vm_compute; reflexivity).
  destruct (plays true (script (options no_env []) MacArm) ex_fs) as [f'|] eqn:E; [|discriminate].
  apply plays_spec in E; [|exact ex_tidy]. exists f'.
  split; [exact ex_clean|]. split; [exact ex_toolchain|]. split; [exact E|]. split.
  - intros [H|H]; [discriminate H|]. exact (given_nil _ H).
  - intros v O.
    pose proof (exec_ready _ _ _ _ _ _ MacArm ex_toolchain (or_introl eq_refl) ex_fs true f' (clean_ready _ _ ex_clean) E) as R.
    apply (native_opens f' LinuxGnu _ _ v R ltac:(left; reflexivity)) in O.
    apply negb_true_iff in P. unfold present in P. rewrite O in P. discriminate.
Qed.
Print Assumptions C56_placeholder_may_be_missing_refuted.

(** And an interrupted run that leaves the project renamed, from that checkout. *)
Example C56_interrupted_met : exists g h,
  runs ex_tools false MacArm no_env ["-w"; "-i"] ex_fs false g /\ renamed60 "<Project/>" g /\
  runs ex_tools false MacArm no_env ["-w"; "-i"] ex_fs false h /\ renamed61 "<Project/>" h.
Proof.
  assert (P : is_some (plays false (script (options no_env ["-w"; "-i"]) MacArm) ex_fs) = true) by (vm_compute; reflexivity).
  destruct (plays false (script (options no_env ["-w"; "-i"]) MacArm) ex_fs) as [f'|] eqn:E; [|discriminate].
  apply plays_spec in E; [|exact ex_tidy].
  assert (W : given ["-w"; "-i"] "w").
  { exists [], "-w", "w", ["-i"]. split; [reflexivity|]. split; [constructor|]. split; [split; [reflexivity|split; discriminate]|left; reflexivity]. }
  assert (I' : given ["-w"; "-i"] "i").
  { exists ["-w"], "-i", "i", []. split; [reflexivity|].
    split; [constructor; [exists "w"; split; [reflexivity|split; discriminate]|constructor]|].
    split; [split; [reflexivity|split; discriminate]|left; reflexivity]. }
  destruct (C56_interrupted_runs_rename_refuted "<Project/>" _ _ _ _ _ _ _ _ _ _ ex_toolchain (or_introl eq_refl)
    (clean_in_place _ _ ex_clean) (or_intror W) E) as [[g [G1 G2]] H].
  destruct (H (or_intror I')) as [h [H1 H2]]. exists g, h. auto.
Qed.
