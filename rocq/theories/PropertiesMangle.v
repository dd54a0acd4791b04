(** C30: exported symbol names. *)
From Verif Require Import Mangle BaseProofs.
Import Coq.Strings.String.StringSyntax.
Open Scope string_scope.
Open Scope list_scope.
Open Scope nat_scope.

(** ** Specification: a path is a list of segments, written with "::" between them,
    and optionally before and after. *)
Fixpoint join (sep : str) (segs : list str) : str :=
  match segs with
  | [] => []
  | [s] => s
  | s :: r => s ++ sep ++ join sep r
  end.
Definition written (p : str) (segs : list str) : Prop :=
  p = join (lit "::") segs \/ p = lit "::" ++ join (lit "::") segs \/
  p = join (lit "::") segs ++ lit "::" \/ p = lit "::" ++ join (lit "::") segs ++ lit "::".
(** The white space of Unicode (the property White_Space). *)
Definition white_space : list N :=
  [9; 10; 11; 12; 13; 32; 133; 160; 5760; 8192; 8193; 8194; 8195; 8196; 8197; 8198; 8199; 8200; 8201; 8202;
   8232; 8233; 8239; 8287; 12288]%N.
(** An identifier-like segment: not empty, no colon, no white space. *)
Definition segment (s : str) : Prop := s <> [] /\ forall c, In c s -> c <> 58%N /\ ~ In c white_space.
Definition symbol (segs : list str) (ident : str) : str :=
  concat (map (fun s => s ++ lit "__") segs) ++ ident.

(** ** Lemmas *)
Lemma is_ws_spec c : is_ws c = true <-> In c white_space.
Proof.
  unfold is_ws. rewrite !Bool.orb_true_iff, !Bool.andb_true_iff, !N.leb_le, !N.eqb_eq. cbn [In white_space]. lia.
Qed.
Lemma not_ws c : ~ In c white_space -> is_ws c = false.
Proof. intros H. destruct (is_ws c) eqn:E; [|reflexivity]. apply is_ws_spec in E. contradiction. Qed.
Lemma split_seg : forall s cur rest, (forall c, In c s -> c <> colon) ->
  split_colons cur (s ++ colon :: colon :: rest) = (rev cur ++ s) :: split_colons [] rest.
Proof.
  induction s as [|c s IH]; intros cur rest H.
  - cbn. rewrite app_nil_r. reflexivity.
  - assert (Hc : N.eqb c colon = false) by (apply N.eqb_neq; apply H; left; reflexivity).
    change ((c :: s) ++ colon :: colon :: rest) with (c :: (s ++ colon :: colon :: rest)).
    assert (E : exists d r, s ++ colon :: colon :: rest = d :: r) by (destruct s; cbn; eauto).
    destruct E as [d [r E]]. cbn [split_colons]. rewrite E, Hc. cbn [andb]. rewrite <- E, IH.
    + cbn. rewrite <- app_assoc. reflexivity.
    + intros x Hx. apply H. right. exact Hx.
Qed.
Lemma split_last : forall s cur, (forall c, In c s -> c <> colon) -> split_colons cur s = [rev cur ++ s].
Proof.
  induction s as [|c s IH]; intros cur H; [cbn; rewrite app_nil_r; reflexivity|].
  assert (Hc : N.eqb c colon = false) by (apply N.eqb_neq; apply H; left; reflexivity).
  cbn [split_colons]. destruct s as [|d r].
  - reflexivity.
  - rewrite Hc. cbn [andb]. rewrite IH.
    + cbn. rewrite <- app_assoc. reflexivity.
    + intros x Hx. apply H. right. exact Hx.
Qed.
Lemma trim_start_id s : (forall c, In c s -> is_ws c = false) -> trim_start s = s.
Proof. destruct s as [|c r]; cbn; intros H; auto. rewrite (H c); auto. Qed.
Lemma trim_id s : (forall c, In c s -> is_ws c = false) -> trim s = s.
Proof.
  intros H. unfold trim. rewrite (trim_start_id _ H), trim_start_id, rev_involutive; auto.
  intros c Hc. apply H. apply in_rev. exact Hc.
Qed.

Definition mangle_step (result : str) (module : str) : str :=
  match module with [] => result | _ => (result ++ trim module) ++ [underscore; underscore] end.
Lemma mangle_step_seg r s : segment s -> mangle_step r s = r ++ s ++ lit "__".
Proof.
  intros [Hn Hs]. destruct s as [|c s]; [congruence|]. unfold mangle_step. rewrite trim_id; [|intros x Hx; apply not_ws; apply Hs; auto].
  rewrite <- app_assoc. reflexivity.
Qed.
Lemma fold_join : forall segs, Forall segment segs -> forall tail r,
  (tail = [] \/ tail = lit "::") ->
  fold_left mangle_step (split_colons [] (join (lit "::") segs ++ tail)) r
  = r ++ concat (map (fun s => s ++ lit "__") segs).
Proof.
  intros segs Hs. induction Hs as [|s segs Hseg Hs IH]; intros tail r Ht.
  - destruct Ht as [->| ->]; cbn; rewrite app_nil_r; reflexivity.
  - assert (Hc : forall c, In c s -> c <> colon) by (intros c Hc; apply Hseg; auto).
    destruct segs as [|s2 segs].
    + cbn [join concat map]. rewrite app_nil_r. destruct Ht as [->| ->].
      * rewrite app_nil_r, split_last by auto. cbn [fold_left rev app]. rewrite mangle_step_seg by auto. rewrite ?app_nil_r. reflexivity.
      * change (lit "::") with [colon; colon]. rewrite (split_seg s [] []) by auto. cbn [fold_left rev app split_colons].
        rewrite (mangle_step_seg r s) by auto. cbn [mangle_step]. rewrite ?app_nil_r. reflexivity.
    + change (join (lit "::") (s :: s2 :: segs)) with (s ++ lit "::" ++ join (lit "::") (s2 :: segs)).
      rewrite <- !app_assoc. change (lit "::" ++ ?x) with (colon :: colon :: x). rewrite split_seg by auto.
      cbn [fold_left rev app]. rewrite mangle_step_seg, IH by auto. cbn [map concat]. rewrite <- !app_assoc. reflexivity.
Qed.

(** Whatever text the attribute holds: it is cut at the "::", from left to right; the empty
    pieces are dropped; white space around the others is removed; each is followed by "__". *)
Definition contains (s part : str) : Prop := exists a b, s = a ++ part ++ b.
Definition cut_at_colons (m : str) (ps : list str) : Prop :=
  ps <> [] /\ join (lit "::") ps = m /\
  forall a p b, ps = a ++ p :: b -> ~ contains p (lit "::") /\ (b <> [] -> forall q, p <> q ++ lit ":").
Definition stripped (s t : str) : Prop :=
  exists a z, s = a ++ t ++ z /\ (forall c, In c a \/ In c z -> In c white_space) /\
    (forall c r, t = c :: r -> ~ In c white_space) /\ (forall c r, t = r ++ [c] -> ~ In c white_space).
Definition not_empty (s : str) : bool := match s with [] => false | _ => true end.

Lemma no_cc_snoc x c : ~ contains x (lit "::") -> (c = colon -> forall q, x <> q ++ [colon]) -> ~ contains (x ++ [c]) (lit "::").
Proof.
  intros H Hc (a & b & E). change (lit "::") with [colon; colon] in *. destruct b as [|y b] using rev_ind.
  - rewrite app_nil_r in E. change (a ++ [colon; colon]) with (a ++ [colon] ++ [colon]) in E. rewrite app_assoc in E.
    apply app_inj_tail in E. destruct E as [E1 E2]. exact (Hc E2 _ E1).
  - rewrite !app_assoc in E. apply app_inj_tail in E. destruct E as [E _]. apply H. exists a, b. rewrite E, !app_assoc. reflexivity.
Qed.
Lemma split_cut : forall n s cur, length s <= n -> ~ contains (rev cur) (lit "::") ->
  (forall q r, s = colon :: r -> rev cur <> q ++ [colon]) -> cut_at_colons (rev cur ++ s) (split_colons cur s).
Proof.
  assert (ONE : forall x, ~ contains x (lit "::") -> cut_at_colons x [x]).
  { intros x H. split; [discriminate|]. split; [reflexivity|]. intros a p b E. destruct a as [|y a]; [|destruct a; discriminate E].
    cbn [app] in E. assert (p = x) by congruence. assert (b = []) by congruence. subst. split; [exact H|]. intros X. contradiction. }
  induction n as [|n IH]; intros s cur L H1 H2.
  - destruct s as [|c r]; [|cbn in L; lia]. cbn [split_colons]. rewrite app_nil_r. apply ONE. exact H1.
  - destruct s as [|c r]; [cbn [split_colons]; rewrite app_nil_r; apply ONE; exact H1|].
    assert (SN : ~ contains (rev cur ++ [c]) (lit "::")).
    { apply no_cc_snoc; [exact H1|]. intros -> q. exact (H2 q r eq_refl). }
    cbn [split_colons]. destruct r as [|d r']; [apply ONE; exact SN|].
    destruct (N.eqb c colon && N.eqb d colon)%bool eqn:CC.
    + apply andb_prop in CC. destruct CC as [C1 C2]. apply N.eqb_eq in C1, C2. subst c d.
      destruct (IH r' []) as (NE & J & P); [cbn in L; lia|intros (a & b & E); destruct a; discriminate E|intros q r _ E; destruct q; discriminate E|].
      cbn [rev app] in J. split; [discriminate|]. split.
      * destruct (split_colons [] r') as [|x t] eqn:SP; [contradiction|]. cbn [join]. rewrite <- J. reflexivity.
      * intros a p b E. destruct a as [|y a]; cbn [app] in E.
        -- assert (p = rev cur) by congruence. subst p. split; [exact H1|]. intros _ q. exact (H2 q _ eq_refl).
        -- assert (E' : split_colons [] r' = a ++ p :: b) by congruence. exact (P a p b E').
    + replace (rev cur ++ c :: d :: r') with (rev (c :: cur) ++ d :: r') by (cbn [rev]; rewrite <- app_assoc; reflexivity).
      apply IH; [cbn in L |- *; lia|exact SN|]. intros q r E X. cbn [rev] in X. apply app_inj_tail in X. destruct X as [_ X].
      assert (d = colon) by congruence. subst. rewrite !N.eqb_refl in CC. discriminate CC.
Qed.
Lemma trim_start_cut s : exists a, s = a ++ trim_start s /\ (forall c, In c a -> In c white_space) /\
  (forall c r, trim_start s = c :: r -> ~ In c white_space).
Proof.
  induction s as [|c s (a & E & W & N)]; cbn [trim_start]; [exists []; split; [reflexivity|]; split; [intros ? []|discriminate]|].
  destruct (is_ws c) eqn:Wc.
  - exists (c :: a). split; [cbn [app]; rewrite <- E; reflexivity|]. split; [|exact N]. intros x [<-|X]; [apply is_ws_spec; exact Wc|auto].
  - exists []. split; [reflexivity|]. split; [intros ? []|]. intros x r X IN. assert (x = c) by congruence. subst. apply is_ws_spec in IN. congruence.
Qed.
Lemma trim_stripped s : stripped s (trim s).
Proof.
  unfold trim. destruct (trim_start_cut s) as (a & E & W & N). destruct (trim_start_cut (rev (trim_start s))) as (z & E2 & W2 & N2).
  set (t := trim_start s) in *. set (u := trim_start (rev t)) in *.
  assert (ET : t = rev u ++ rev z) by (rewrite <- rev_app_distr, <- E2, rev_involutive; reflexivity).
  exists a, (rev z). split; [rewrite <- ET; exact E|]. split; [|split].
  - intros c [C|C]; [exact (W c C)|]. apply W2. apply in_rev. exact C.
  - intros c r X. apply (N c (r ++ rev z)). rewrite ET, X. reflexivity.
  - intros c r X. apply (N2 c (rev r)). rewrite <- (rev_involutive u), X, rev_app_distr. reflexivity.
Qed.
Lemma fold_any : forall ps r, fold_left mangle_step ps r = r ++ concat (map (fun t => t ++ lit "__") (map trim (filter not_empty ps))).
Proof.
  induction ps as [|p ps IH]; intros r; cbn [fold_left filter map concat]; [rewrite app_nil_r; reflexivity|]. rewrite IH.
  destruct p as [|c p]; cbn [not_empty mangle_step map concat]; [reflexivity|]. rewrite <- !app_assoc. reflexivity.
Qed.
Theorem C30_any_path :
  forall m, exists ps ts, cut_at_colons m ps /\ Forall2 stripped (filter not_empty ps) ts /\
    mangle_path m = concat (map (fun t => t ++ lit "__") ts).
Proof.
  intros m. exists (split_colons [] m), (map trim (filter not_empty (split_colons [] m))). split; [|split].
  - apply (split_cut (length m) m []); [lia|intros (a & b & E); destruct a; discriminate E|intros q r _ E; destruct q; discriminate E].
  - induction (filter not_empty (split_colons [] m)) as [|p l IH]; constructor; [apply trim_stripped|exact IH].
  - unfold mangle_path. change (fun result module => _) with mangle_step. rewrite fold_any. reflexivity.
Qed.
Print Assumptions C30_any_path.
Example any_path_example : mangle_path (lit " a :: b c ::: d::::") = lit "a__b c__: d__".
Proof. reflexivity. Qed.

(** A path written from its segments, with or without a leading or trailing "::",
    is mangled to the segments each followed by "__". *)
Theorem C30_mangled_form :
  forall p segs, Forall segment segs -> written p segs ->
    mangle_path p = concat (map (fun s => s ++ lit "__") segs).
Proof.
  intros p segs Hs Hp. unfold mangle_path. change (fun result module => _) with mangle_step.
  destruct Hp as [->|[->|[->| ->]]].
  - rewrite <- (app_nil_r (join _ _)). rewrite fold_join; auto.
  - change (lit "::" ++ ?x) with ([] ++ colon :: colon :: x). rewrite (split_seg [] []) by (intros ? []). cbn [fold_left rev app mangle_step].
    rewrite <- (app_nil_r (join _ _)). rewrite fold_join; auto.
  - rewrite fold_join; auto.
  - change (lit "::" ++ ?x) with ([] ++ colon :: colon :: x). rewrite (split_seg [] []) by (intros ? []). cbn [fold_left rev app mangle_step].
    rewrite fold_join; auto.
Qed.
Print Assumptions C30_mangled_form.

Theorem C30_symbol_form :
  forall valid p segs kind ident, Forall segment segs -> written p segs ->
    remangle valid p kind ident =
    match kind with
    | IOther => Ok None
    | _ => if valid (symbol segs ident) then Ok (Some (symbol segs ident)) else Panic
    end.
Proof.
  intros valid p segs kind ident Hs Hp. unfold remangle, symbol. rewrite (C30_mangled_form _ _ Hs Hp). reflexivity.
Qed.
Print Assumptions C30_symbol_form.

(** Two items under one path: different identifiers, different symbols. *)
Theorem C30_distinct_within_one_path :
  forall p i j, i <> j -> mangle_path p ++ i <> mangle_path p ++ j.
Proof. intros p i j Hne E. apply app_inv_head in E. contradiction. Qed.
Print Assumptions C30_distinct_within_one_path.

(** ** Across paths *)

(** [s] contains "__". *)
Definition has_double (s : str) : Prop := exists a b, s = a ++ lit "__" ++ b.
(** A segment that "__" can delimit: no "__" inside and no "_" at the end. *)
Definition delimited (s : str) : Prop := ~ has_double s /\ forall a, s <> a ++ lit "_".

Lemma delim_inj : forall s t u v,
  delimited s -> delimited t -> s ++ lit "__" ++ u = t ++ lit "__" ++ v -> s = t /\ u = v.
Proof.
  induction s as [|c s IH]; intros t u v Hs Ht E.
  - destruct t as [|d t].
    + cbn in E. injection E as ->. auto.
    + exfalso. cbn in E. injection E as <- E. destruct t as [|d2 t].
      * destruct Ht as [_ Ht]. apply (Ht []). reflexivity.
      * cbn in E. injection E as <- E. destruct Ht as [Ht _]. apply Ht. exists [], t. reflexivity.
  - destruct t as [|d t].
    + exfalso. cbn in E. injection E as -> E. destruct s as [|c2 s].
      * destruct Hs as [_ Hs]. apply (Hs []). reflexivity.
      * cbn in E. injection E as -> E. destruct Hs as [Hs _]. apply Hs. exists [], s. reflexivity.
    + cbn in E. injection E as -> E. destruct (IH t u v) as [-> ->]; auto.
      * destruct Hs as [H1 H2]. split.
        { intros [a [b ->]]. apply H1. exists (d :: a), b. reflexivity. }
        { intros a ->. apply (H2 (d :: a)). reflexivity. }
      * destruct Ht as [H1 H2]. split.
        { intros [a [b ->]]. apply H1. exists (d :: a), b. reflexivity. }
        { intros a ->. apply (H2 (d :: a)). reflexivity. }
Qed.

Lemma symbol_cons s segs i : symbol (s :: segs) i = s ++ lit "__" ++ symbol segs i.
Proof. unfold symbol. cbn [map concat]. rewrite <- !app_assoc. reflexivity. Qed.

Lemma symbol_inj_gen (stop : str -> Prop) (segok : str -> Prop) :
  (forall s, segok s -> delimited s) ->
  (forall s segs i j, segok s -> stop i -> stop j -> i <> symbol (s :: segs) j) ->
  forall segs segs' i i', Forall segok segs -> Forall segok segs' -> stop i -> stop i' ->
    symbol segs i = symbol segs' i' -> segs = segs' /\ i = i'.
Proof.
  intros Hd Hstop segs. induction segs as [|s segs IH]; intros segs' i i' Hs Hs' Hi Hi' E.
  - destruct segs' as [|s' segs']; [auto|]. exfalso. inversion Hs'; subst. apply (Hstop s' segs' i i'); auto.
  - destruct segs' as [|s' segs'].
    + exfalso. inversion Hs; subst. apply (Hstop s segs i' i); auto.
    + inversion Hs; inversion Hs'; subst. rewrite !symbol_cons in E.
      destruct (delim_inj _ _ _ _ (Hd _ H1) (Hd _ H5) E) as [-> E2]. destruct (IH segs' i i') as [-> ->]; auto.
Qed.

(** Distinct (path, identifier) pairs get distinct symbols if segments contain no
    "__" and do not end in "_", and identifiers contain no "__". *)
Theorem C30_distinct_without_double_underscores_partial :
  forall p q segs segs' i j,
    Forall segment segs -> Forall segment segs' -> written p segs -> written q segs' ->
    Forall delimited segs -> Forall delimited segs' -> ~ has_double i -> ~ has_double j ->
    mangle_path p ++ i = mangle_path q ++ j -> segs = segs' /\ i = j.
Proof.
  intros p q segs segs' i j Hs Hs' Wp Wq Hd Hd' Hi Hj E.
  rewrite (C30_mangled_form _ _ Hs Wp), (C30_mangled_form _ _ Hs' Wq) in E.
  apply (symbol_inj_gen (fun i => ~ has_double i) delimited); auto.
  intros s l a b _ Ha _ Eq. apply Ha. rewrite Eq, symbol_cons. eexists s, _. reflexivity.
Qed.
Print Assumptions C30_distinct_without_double_underscores_partial.

(** ... or, for identifiers of any shape (the exported functions are called
    [Type__method]), if identifiers start with a character that no segment starts
    with, as upper-case type names and lower-case module names do. *)
Theorem C30_distinct_by_initial_letter_partial :
  forall (K : N -> Prop) p q segs segs' i j,
    Forall segment segs -> Forall segment segs' -> written p segs -> written q segs' ->
    Forall delimited segs -> Forall delimited segs' ->
    (forall s, In s (segs ++ segs') -> forall c r, s = c :: r -> K c) ->
    (forall c r, i = c :: r -> ~ K c) -> (forall c r, j = c :: r -> ~ K c) ->
    mangle_path p ++ i = mangle_path q ++ j -> segs = segs' /\ i = j.
Proof.
  intros K p q segs segs' i j Hs Hs' Wp Wq Hd Hd' HK Hi Hj E.
  rewrite (C30_mangled_form _ _ Hs Wp), (C30_mangled_form _ _ Hs' Wq) in E.
  apply (symbol_inj_gen (fun i => forall c r, i = c :: r -> ~ K c)
           (fun s => delimited s /\ segment s /\ forall c r, s = c :: r -> K c)); auto.
  - intros s [H _]; exact H.
  - intros s l a b [_ [[Hne _] Hk]] Ha _ Eq. destruct s as [|c s]; [congruence|]. rewrite symbol_cons in Eq. cbn in Eq.
    apply (Ha _ _ Eq). apply (Hk c s). reflexivity.
  - rewrite Forall_forall in *. intros s Hin. split; [auto|]. split; [auto|]. apply HK. apply in_app_iff. auto.
  - rewrite Forall_forall in *. intros s Hin. split; [auto|]. split; [auto|]. apply HK. apply in_app_iff. auto.
Qed.
Print Assumptions C30_distinct_by_initial_letter_partial.

(** The full claim is false: different paths, one symbol. *)
Theorem C30_different_paths_one_symbol_refuted :
  (* a module called [b] against an item called [b__c] *)
  mangle_path (lit "a::b") ++ lit "c" = mangle_path (lit "a") ++ lit "b__c" /\
  (* a module whose name contains "__" *)
  mangle_path (lit "a__b") ++ lit "c" = mangle_path (lit "a::b") ++ lit "c" /\
  (* a trailing against a leading underscore *)
  mangle_path (lit "a_") ++ lit "c" = mangle_path (lit "a") ++ lit "_c" /\
  (* blanks and empty segments disappear *)
  mangle_path (lit "::a :: b::") = mangle_path (lit "a::b").
Proof. repeat split; vm_compute; reflexivity. Qed.
Print Assumptions C30_different_paths_one_symbol_refuted.

(** Hypotheses: two of the exported functions of the repository. *)
Definition lower (c : N) : Prop := (97 <= c <= 122)%N.
Lemma not_has_double s : existsb (fun i => N.eqb (nth i s 0%N) 95 && N.eqb (nth (S i) s 0%N) 95) (seq 0 (length s)) = false ->
  ~ has_double s.
Proof.
  intros H [a [b ->]]. rewrite <- Bool.not_true_iff_false in H. apply H. apply existsb_exists. exists (length a). split.
  - apply in_seq. rewrite !app_length. cbn. lia.
  - rewrite (app_nth2 a) by lia. rewrite (app_nth2 a) by lia.
    replace (length a - length a) with 0 by lia. replace (S (length a) - length a) with 1 by lia. reflexivity.
Qed.
Lemma not_end_underscore s : last s 0%N <> 95%N -> forall a, s <> a ++ lit "_".
Proof. intros H a ->. apply H. change (lit "_") with [95%N]. rewrite last_last. reflexivity. Qed.
Definition pathA := map lit ["tp_client"; "contract"; "properties"; "states"].
Lemma pathA_ok : Forall segment pathA /\ Forall delimited pathA.
Proof.
  unfold pathA. cbn [map]. split.
  - repeat apply Forall_cons; try apply Forall_nil; (split; [discriminate|]);
      intros c Hc; vm_compute in Hc; repeat (destruct Hc as [Hc|Hc]; [subst c; split; [discriminate|rewrite <- is_ws_spec; vm_compute; discriminate]|]); contradiction.
  - repeat apply Forall_cons; try apply Forall_nil;
      (split; [apply not_has_double; vm_compute; reflexivity|apply not_end_underscore; vm_compute; discriminate]).
Qed.
Example C30_example :
  Forall segment pathA /\ Forall delimited pathA /\ written (lit "tp_client::contract::properties::states") pathA /\
  (forall s, In s pathA -> forall c r, s = c :: r -> lower c) /\
  (forall c r, lit "StateId_U8__contract" = c :: r -> ~ lower c) /\
  mangle_path (lit "tp_client::contract::properties::states") ++ lit "StateId_U8__contract"
    = lit "tp_client__contract__properties__states__StateId_U8__contract".
Proof.
  destruct pathA_ok as [H1 H2]. split; [exact H1|]. split; [exact H2|]. split; [left; vm_compute; reflexivity|]. split; [|split].
  - intros s Hs c r E. unfold pathA in Hs. cbn [map In] in Hs.
    repeat (destruct Hs as [Hs|Hs]; [subst s; vm_compute in E; injection E as <- <-; unfold lower; lia|]). contradiction.
  - intros c r E. vm_compute in E. injection E as <- <-. unfold lower. lia.
  - vm_compute. reflexivity.
Qed.
