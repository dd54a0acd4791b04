(** C50: the program that runs CppSharp finds the project, replaces the bindings, and
    touches nothing else. *)
From Verif Require Import PInvoke.
From Coq Require Import Lia.
Import Coq.Strings.String.StringSyntax.
Open Scope string_scope.
Open Scope list_scope.
Open Scope nat_scope.

(** ** Basics *)

Lemma seqb : forall a b, str_eqb a b = true <-> a = b.
Proof.
  induction a as [|x a IH]; intros [|y b]; cbn [str_eqb]; split; intros H; try discriminate; try reflexivity.
  - apply Bool.andb_true_iff in H. destruct H as [H1 H2]. apply N.eqb_eq in H1. apply IH in H2. congruence.
  - injection H as -> ->. rewrite N.eqb_refl. apply IH. reflexivity.
Qed.
Lemma peqb : forall a b, path_eqb a b = true <-> a = b.
Proof.
  induction a as [|x a IH]; intros [|y b]; cbn [path_eqb]; split; intros H; try discriminate; try reflexivity.
  - apply Bool.andb_true_iff in H. destruct H as [H1 H2]. apply seqb in H1. apply IH in H2. congruence.
  - injection H as -> ->. apply Bool.andb_true_iff. split; [apply seqb|apply IH]; reflexivity.
Qed.
Lemma peqb_refl : forall p, path_eqb p p = true.
Proof. intros. apply peqb. reflexivity. Qed.
Lemma peqb_neq : forall a b, a <> b -> path_eqb a b = false.
Proof. intros a b H. destruct (path_eqb a b) eqn:E; [apply peqb in E; contradiction|reflexivity]. Qed.

Lemma read_write : forall p v f, read p (write p v f) = Some v.
Proof.
  induction f as [|[q w] f IH]; cbn [write read]; [rewrite peqb_refl; reflexivity|].
  destruct (path_eqb p q) eqn:E; cbn [read]; [rewrite peqb_refl; reflexivity|rewrite E; exact IH].
Qed.
Lemma read_write_other : forall p q v f, p <> q -> read p (write q v f) = read p f.
Proof.
  intros p q v f N. induction f as [|[r w] f IH]; cbn [write read]; [rewrite peqb_neq by exact N; reflexivity|].
  destruct (path_eqb q r) eqn:E; cbn [read].
  - apply peqb in E. subst r. rewrite peqb_neq by exact N. reflexivity.
  - destruct (path_eqb p r); [reflexivity|exact IH].
Qed.

Lemma under_spec : forall d p, under d p = true <-> exists r, p = d ++ r.
Proof.
  induction d as [|x d IH]; intros p; cbn [under].
  - split; [exists p; reflexivity|reflexivity].
  - destruct p as [|y p].
    + split; [discriminate|intros [r H]; discriminate].
    + rewrite Bool.andb_true_iff, IH, seqb. split.
      * intros [-> [r ->]]. exists r. reflexivity.
      * intros [r H]. cbn in H. injection H as -> ->. eauto.
Qed.
Lemma under_app : forall d r, under d (d ++ r) = true.
Proof. intros. apply under_spec. eauto. Qed.

Lemma read_delete : forall d p f,
  read p (filter (fun e => negb (under d (fst e))) f) = if under d p then None else read p f.
Proof.
  intros d p. induction f as [|[q v] f IH]; cbn [filter read fst]; [destruct (under d p); reflexivity|].
  destruct (under d q) eqn:U; cbn [negb].
  - rewrite IH. destruct (path_eqb p q) eqn:E; [|reflexivity]. apply peqb in E. subst q. rewrite U. reflexivity.
  - cbn [read]. rewrite IH. destruct (path_eqb p q) eqn:E; [|reflexivity].
    apply peqb in E. subst q. rewrite U. reflexivity.
Qed.

Lemma snoc : forall (A : Type) (l : list A) x, removelast (l ++ [x]) = l.
Proof. intros. rewrite removelast_app by discriminate. cbn. apply app_nil_r. Qed.

(** ** What is expected *)

(** The three binding directories and the crates they are for. *)
Definition bindings (root : path) : list (path * str) :=
  [ (root ++ map lit ["client"; "cs"; "src"; "generated"; "cpp_sharp"], lit "tp_client");
    (root ++ map lit ["demos"; "unity_states"; "cs"; "src"; "generated"; "cpp_sharp"], lit "unity_states");
    (root ++ map lit ["client"; "contract_example"; "cs"; "src"; "generated"; "cpp_sharp"],
     lit "tp_contract_example") ].

(** Linux and Android, iOS, macOS, Windows. *)
Definition library_kinds : list str := map lit ["so"; "a"; "dylib"; "dll"].

(** ** Where the project is *)

(** The assembly lies in client/codegen_pinvoke/bin/CONFIGURATION/FRAMEWORK, or one
    deeper, in the folder of a platform: whatever those are called and wherever the
    project is, it is found. *)
Theorem C50_finds_the_project : forall root configuration framework platform file,
  let bin := map lit ["client"; "codegen_pinvoke"; "bin"] ++ [configuration; framework] in
  project_dir (root ++ bin ++ [file]) = root /\
  project_dir (root ++ bin ++ [platform; file]) = root.
Proof.
  intros root c t p x bin. subst bin. cbn [map app].
  remember (lit "client") as cl eqn:Hc. remember (lit "codegen_pinvoke") as cp eqn:Hp.
  remember (lit "bin") as b eqn:Hb. unfold project_dir, parent, name.
  assert (step : forall l, l <> [] -> removelast (root ++ l) = root ++ removelast l)
    by (intros l N; apply removelast_app; exact N).
  split.
  - do 5 (rewrite step by discriminate; cbn [removelast]).
    rewrite last_last. rewrite <- Hc.
    replace (str_eqb cl cl) with true by (symmetry; apply seqb; reflexivity).
    apply snoc.
  - do 5 (rewrite step by discriminate; cbn [removelast]).
    replace (root ++ [cl; cp]) with ((root ++ [cl]) ++ [cp]) by (rewrite <- app_assoc; reflexivity).
    rewrite last_last. replace (str_eqb cp (lit "client")) with false by (subst; reflexivity).
    rewrite snoc. apply snoc.
Qed.
Print Assumptions C50_finds_the_project.

(** With arguments it does nothing and answers -1. *)
Theorem C50_arguments_are_refused : forall assembly n over cpp f,
  main assembly (S n) over cpp f = (Some 1, f).
Proof. reflexivity. Qed.
Print Assumptions C50_arguments_are_refused.

(** ** Directories *)

Lemma app_head : forall (A : Type) (root a b : list A) r s, root ++ a ++ r = root ++ b ++ s -> a ++ r = b ++ s.
Proof. intros A root a b r s H. apply app_inv_head in H. exact H. Qed.

(** Two directories of the project with different beginnings have no file in common. *)
Definition apart (a b : path) : Prop := forall r s, a ++ r <> b ++ s.
Lemma apart_root : forall root a b, apart a b -> apart (root ++ a) (root ++ b).
Proof. intros root a b H r s E. rewrite <- !app_assoc in E. apply app_inv_head in E. exact (H r s E). Qed.
Lemma apart_sym : forall a b, apart a b -> apart b a.
Proof. intros a b H r s E. exact (H s r (eq_sym E)). Qed.
Lemma apart_cons : forall x a b, apart a b -> apart (x :: a) (x :: b).
Proof. intros x a b H r s E. cbn in E. assert (a ++ r = b ++ s) by congruence. exact (H r s H0). Qed.
Lemma apart_head : forall x y a b, str_eqb x y = false -> apart (x :: a) (y :: b).
Proof.
  intros x y a b H r s E. cbn in E. assert (x = y) by congruence. subst y.
  assert (str_eqb x x = true) by (apply seqb; reflexivity). congruence.
Qed.
Lemma apart_under : forall a b p, apart a b -> under a p = true -> under b p = false.
Proof.
  intros a b p H U. apply under_spec in U. destruct U as [r ->].
  destruct (under b (a ++ r)) eqn:V; [|reflexivity]. apply under_spec in V. destruct V as [s V]. destruct (H r s V).
Qed.

Ltac ap := cbn [map]; repeat first [apply apart_head; reflexivity | apply apart_cons].

(** The output directories of the two other generators (C48), the native libraries,
    and the three directories this program writes are apart from each other. *)
Definition others (root : path) : list path :=
  [ root ++ map lit ["client"; "cs"; "src"; "generated"; "wrapped"];
    root ++ map lit ["crates"; "rsharp"; "cs"; "src"; "generated"];
    artifacts root ].
Theorem C50_directories_are_apart : forall root,
  (forall l d, In l (bindings root) -> In d (others root) -> apart (fst l) d) /\
  (forall i j l k, nth_error (bindings root) i = Some l -> nth_error (bindings root) j = Some k -> i <> j ->
     apart (fst l) (fst k)).
Proof.
  intros root. split.
  - intros l d L D. cbn [bindings In] in L. cbn [others In] in D. unfold artifacts in D.
    destruct L as [<-|[<-|[<-|[]]]]; destruct D as [<-|[<-|[<-|[]]]]; cbn [fst]; apply apart_root; ap.
  - intros i j l k L K N. unfold bindings in L, K.
    destruct i as [|[|[|i]]]; destruct j as [|[|[|j]]]; cbn [nth_error] in L, K; try lia;
      try (destruct i; discriminate L); try (destruct j; discriminate K);
      apply (f_equal (fun o => match o with Some x => fst x | None => [] end)) in L;
      apply (f_equal (fun o => match o with Some x => fst x | None => [] end)) in K;
      destruct l as [l1 l2], k as [k1 k2]; cbv beta iota in L, K; cbn [fst] in L, K |- *; subst l1 k1; apply apart_root; ap.
Qed.
Print Assumptions C50_directories_are_apart.

(** ** What may change *)

(** The files of [art] that a copy may make or replace. *)
Definition copy_name (art : path) (target : str) (p : path) : Prop :=
  exists ext, p = art ++ split 47%N (target ++ lit "." ++ ext) \/
              p = art ++ split 47%N (lit "lib" ++ target ++ lit "." ++ ext).

Lemma copy_one_frame : forall art crate target file f f' p,
  copy_one art crate target file f = Some f' -> ~ copy_name art target p -> read p f' = read p f.
Proof.
  intros art crate target file f f' p E N. unfold copy_one in E.
  set (ext := nth 1 (split dot (show_path file)) []) in *.
  match type of E with match read ?a f with _ => _ end = _ => destruct (read a f) as [v|]; [|discriminate E] end.
  match type of E with (if ?b then _ else _) = _ => destruct b; [|discriminate E] end.
  assert (E' : f' = write (art ++ split slash ((if str_eqb ext (lit "dll") then [] else lit "lib") ++ target ++ dot :: ext)) v f)
    by congruence.
  subst f'. apply read_write_other. intros ->. apply N. exists ext.
  destruct (str_eqb ext (lit "dll")); [left|right]; reflexivity.
Qed.
Lemma copy_all_frame : forall art crate target l f ok f' p,
  copy_all art crate target l f = (ok, f') -> ~ copy_name art target p -> read p f' = read p f.
Proof.
  induction l as [|x l IH]; intros f ok f' p E N; cbn [copy_all] in E; [congruence|].
  destruct (copy_one art crate target x f) as [g|] eqn:C; [|congruence].
  rewrite (IH _ _ _ _ E N). eapply copy_one_frame; eauto.
Qed.
Lemma setup_frame : forall root crate target f ok f' p,
  setup root crate target f = (ok, f') -> ~ copy_name (artifacts root) target p -> read p f' = read p f.
Proof.
  intros root crate target f ok f' p E N. unfold setup in E. destruct (str_eqb crate target); [congruence|].
  eapply copy_all_frame; eauto.
Qed.

Lemma emit_frame : forall out l f p, under out p = false -> read p (emit out l f) = read p f.
Proof.
  induction l as [|[q v] l IH]; intros f p U; cbn [emit]; [reflexivity|].
  rewrite IH by exact U. apply read_write_other. intros ->. rewrite under_app in U. discriminate U.
Qed.

(** What is left when a list of files is written to an empty directory. *)
Definition written (l : list (path * str)) : fs := emit [] l [].

Lemma emit_inside : forall out l f g r,
  (forall r, read (out ++ r) f = read r g) -> read (out ++ r) (emit out l f) = read r (emit [] l g).
Proof.
  induction l as [|[q v] l IH]; intros f g r H; cbn [emit]; [apply H|].
  apply IH. intros r'. cbn [app]. destruct (path_eqb r' q) eqn:E.
  - apply peqb in E. subst r'. rewrite !read_write. reflexivity.
  - assert (r' <> q) by (intros ->; rewrite peqb_refl in E; discriminate).
    rewrite !read_write_other; [apply H|exact H0|]. intros K. apply app_inv_head in K. contradiction.
Qed.

Lemma run_lib_frame : forall root target cpp l f ok f' p,
  run_lib root target cpp l f = (ok, f') -> under (fst l) p = false -> ~ copy_name (artifacts root) target p ->
  read p f' = read p f.
Proof.
  intros root target cpp l f ok f' p E U N. unfold run_lib in E.
  destruct (setup root (snd l) target (filter (fun e => negb (under (fst l) (fst e))) f)) as [o g] eqn:S.
  assert (G : read p g = read p f).
  { rewrite (setup_frame _ _ _ _ _ _ _ S N), read_delete, U. reflexivity. }
  destruct o.
  - assert (f' = emit (fst l) (cpp (snd l) g) g) by congruence. subst f'. rewrite emit_frame by exact U. exact G.
  - congruence.
Qed.

Lemma run_libs_frame : forall root target cpp ls f ok f' p,
  run_libs root target cpp ls f = (ok, f') -> (forall l, In l ls -> under (fst l) p = false) ->
  ~ copy_name (artifacts root) target p -> read p f' = read p f.
Proof.
  induction ls as [|l ls IH]; intros f ok f' p E U N; cbn [run_libs] in E; [congruence|].
  destruct (run_lib root target cpp l f) as [o g] eqn:R.
  assert (G : read p g = read p f) by (eapply run_lib_frame; eauto; apply U; left; reflexivity).
  destruct o; [|congruence]. rewrite (IH _ _ _ _ E); auto. intros k K. apply U. right. exact K.
Qed.

Definition chosen (over : option str) : str := match over with Some n => n | None => lit "unity_states" end.

(** However it ends, only the three output directories and, beside the native
    libraries, files with the chosen name are changed. *)
Theorem C50_touches_nothing_else : forall assembly args over cpp f code f' p,
  main assembly args over cpp f = (code, f') ->
  (forall l, In l (bindings (project_dir assembly)) -> ~ exists r, p = fst l ++ r) ->
  ~ copy_name (artifacts (project_dir assembly)) (chosen over) p ->
  read p f' = read p f.
Proof.
  intros assembly [|n] over cpp f code f' p E U N; unfold main in E; [|congruence].
  fold (chosen over) in E.
  destruct (run_libs (project_dir assembly) (chosen over) cpp (libs (project_dir assembly)) f) as [ok g] eqn:R.
  assert (f' = g) by congruence. subst g. eapply run_libs_frame; [exact R| |exact N].
  intros l L. destruct (under (fst l) p) eqn:X; [|reflexivity]. apply under_spec in X. destruct (U l L X).
Qed.
Print Assumptions C50_touches_nothing_else.

Lemma copy_name_under : forall art target p, copy_name art target p -> under art p = true.
Proof. intros art target p (ext & [-> | ->]); apply under_app. Qed.

Lemma run_lib_output : forall root target cpp l f f' r,
  apart (fst l) (artifacts root) -> run_lib root target cpp l f = (true, f') ->
  exists seen, read (fst l ++ r) f' = read r (written (cpp (snd l) seen)) /\
               setup root (snd l) target (filter (fun e => negb (under (fst l) (fst e))) f) = (true, seen).
Proof.
  intros root target cpp l f f' r A E. unfold run_lib in E.
  destruct (setup root (snd l) target (filter (fun e => negb (under (fst l) (fst e))) f)) as [o g] eqn:S.
  destruct o; [|discriminate E]. exists g. split; [|reflexivity].
  assert (f' = emit (fst l) (cpp (snd l) g) g) by congruence. subst f'.
  apply emit_inside. intros r'.
  rewrite (setup_frame _ _ _ _ _ _ (fst l ++ r') S).
  - rewrite read_delete, under_app. reflexivity.
  - intros C. apply copy_name_under in C. apply under_spec in C. destruct C as [s C]. exact (A r' s C).
Qed.

Lemma run_libs_outputs : forall root target cpp ls f f',
  (forall l, In l ls -> apart (fst l) (artifacts root)) ->
  (forall i j l k, nth_error ls i = Some l -> nth_error ls j = Some k -> i <> j -> apart (fst l) (fst k)) ->
  run_libs root target cpp ls f = (true, f') ->
  forall l, In l ls -> exists seen, forall r, read (fst l ++ r) f' = read r (written (cpp (snd l) seen)).
Proof.
  induction ls as [|k ls IH]; intros f f' A D E l I; [destruct I|]. cbn [run_libs] in E.
  destruct (run_lib root target cpp k f) as [o g] eqn:R. destruct o; [|discriminate E].
  destruct I as [->|I].
  - unfold run_lib in R.
    destruct (setup root (snd l) target (filter (fun e => negb (under (fst l) (fst e))) f)) as [o s] eqn:SU.
    destruct o; [|discriminate R]. exists s. intros r.
    assert (R' : run_lib root target cpp l f = (true, g)).
    { unfold run_lib. rewrite SU. congruence. }
    destruct (run_lib_output _ _ _ _ _ _ r (A l (or_introl eq_refl)) R') as (s' & Q & S').
    assert (s' = s) by congruence. subst s'. rewrite <- Q.
    eapply run_libs_frame; [exact E| |].
    + intros k K. apply In_nth_error in K. destruct K as [j K].
      apply (apart_under (fst l) (fst k)); [|apply under_app].
      apply (D 0 (S j) l k); [reflexivity|exact K|discriminate].
    + intros C. apply copy_name_under in C. apply under_spec in C. destruct C as [t C].
      exact (A l (or_introl eq_refl) r t C).
  - apply (IH g f'); auto.
    + intros x X. apply A. right. exact X.
    + intros i j x y X Y N. apply (D (S i) (S j)); auto.
Qed.

(** On success each output directory holds exactly what CppSharp wrote there: nothing
    of an earlier run is left. *)
Theorem C50_success_replaces_the_bindings : forall assembly over cpp f f',
  main assembly 0 over cpp f = (Some 0, f') ->
  forall l, In l (bindings (project_dir assembly)) ->
  exists seen, forall r, read (fst l ++ r) f' = read r (written (cpp (snd l) seen)).
Proof.
  intros assembly over cpp f f' E l L. unfold main in E. fold (chosen over) in E.
  destruct (run_libs (project_dir assembly) (chosen over) cpp (libs (project_dir assembly)) f) as [ok g] eqn:R.
  destruct ok; [|discriminate E]. assert (g = f') by congruence. subst g.
  destruct (C50_directories_are_apart (project_dir assembly)) as [A D].
  eapply run_libs_outputs; eauto. intros k K. apply (A k); [exact K|]. right. right. left. reflexivity.
Qed.
Print Assumptions C50_success_replaces_the_bindings.

(** ** The copies *)

Definition free_of (c : N) (s : str) : Prop := ~ In c s.

Lemma split_free : forall c s, free_of c s -> split c s = [s].
Proof.
  induction s as [|x s IH]; intros F; [reflexivity|]. cbn [split].
  destruct (N.eqb_spec x c) as [->|]; [destruct F; left; reflexivity|].
  rewrite IH; [reflexivity|]. intros I. apply F. right. exact I.
Qed.
Lemma split_app : forall c s t, free_of c s -> split c (s ++ c :: t) = s :: split c t.
Proof.
  induction s as [|x s IH]; intros t F; cbn [app split]; [rewrite N.eqb_refl; reflexivity|].
  destruct (N.eqb_spec x c) as [->|]; [destruct F; left; reflexivity|].
  rewrite IH; [reflexivity|]. intros I. apply F. right. exact I.
Qed.
Lemma split_nonempty : forall c s, split c s <> [].
Proof. intros c [|x s]; cbn [split]; [discriminate|]. destruct (N.eqb x c); [discriminate|]. destruct (split c s); discriminate. Qed.

(** A path as text, and the two signs that matter in it. *)
Definition path_text (p : path) : str := flat_map (fun c => lit "/" ++ c) p.
Definition full_stop : N := 46.
Definition solidus : N := 47.
Example signs : lit "./" = [full_stop; solidus]. Proof. reflexivity. Qed.
Lemma path_text_show : forall p, path_text p = show_path p. Proof. reflexivity. Qed.

(** The library of a crate, as the platform calls it. *)
Definition library (crate ext : str) : str :=
  (if str_eqb ext (lit "dll") then [] else lit "lib") ++ crate ++ lit "." ++ ext.
Lemma library_eq : forall crate ext, library crate ext = (if str_eqb ext (lit "dll") then [] else lit "lib") ++ crate ++ dot :: ext.
Proof. reflexivity. Qed.

Lemma show_app : forall a b, show_path (a ++ b) = show_path a ++ show_path b.
Proof. intros. unfold show_path. apply flat_map_app. Qed.

Lemma ext_free : forall c, In c [dot; slash] -> forall e, In e library_kinds -> free_of c e.
Proof.
  assert (A : forallb (fun c => forallb (fun e => negb (existsb (N.eqb c) e)) library_kinds) [dot; slash] = true)
    by (vm_compute; reflexivity).
  intros c C e E I. rewrite forallb_forall in A. specialize (A c C). rewrite forallb_forall in A. specialize (A e E).
  apply Bool.negb_true_iff in A. assert (X : existsb (N.eqb c) e = true)
    by (apply existsb_exists; exists c; split; [exact I|apply N.eqb_refl]). congruence.
Qed.

Lemma lib_free : forall c, In c [dot; slash] -> forall e, free_of c (if str_eqb e (lit "dll") then [] else lit "lib").
Proof.
  intros c C e I. destruct (str_eqb e (lit "dll")); [destruct I|].
  assert (A : forallb (fun c => negb (existsb (N.eqb c) (lit "lib"))) [dot; slash] = true) by (vm_compute; reflexivity).
  rewrite forallb_forall in A. specialize (A c C). apply Bool.negb_true_iff in A.
  assert (X : existsb (N.eqb c) (lit "lib") = true)
    by (apply existsb_exists; exists c; split; [exact I|apply N.eqb_refl]). congruence.
Qed.
Lemma dot_in : In dot [dot; slash]. Proof. left. reflexivity. Qed.
Lemma slash_in : In slash [dot; slash]. Proof. right. left. reflexivity. Qed.

Lemma library_slash : forall crate e, free_of slash crate -> In e library_kinds -> split slash (library crate e) = [library crate e].
Proof.
  intros crate e C E. apply split_free. rewrite ?library_eq. intros I.
  apply in_app_or in I. destruct I as [I|I]; [exact (lib_free slash slash_in e I)|].
  apply in_app_or in I. destruct I as [I|I]; [exact (C I)|].
  destruct I as [I|I]; [discriminate I|exact (ext_free slash slash_in e E I)].
Qed.

Lemma found_ext : forall art crate e, free_of dot (show_path art) -> free_of dot crate -> In e library_kinds ->
  nth 1 (split dot (show_path (art ++ [library crate e]))) [] = e.
Proof.
  intros art crate e A C E.
  assert (Q : show_path (art ++ [library crate e])
              = (show_path art ++ slash :: (if str_eqb e (lit "dll") then [] else lit "lib") ++ crate) ++ dot :: e).
  { rewrite show_app. rewrite ?library_eq. unfold show_path at 2. cbn [flat_map]. rewrite app_nil_r, <- !app_assoc.
    cbn [app]. rewrite <- !app_assoc. reflexivity. }
  rewrite Q, split_app.
  - rewrite split_free by (apply (ext_free dot dot_in); exact E). reflexivity.
  - intros I. apply in_app_or in I. destruct I as [I|[I|I]]; [exact (A I)|discriminate I|].
    apply in_app_or in I. destruct I as [I|I]; [exact (lib_free dot dot_in e I)|exact (C I)].
Qed.

Lemma library_inj : forall a b e e', free_of dot a -> free_of dot b -> In e library_kinds -> In e' library_kinds ->
  library a e = library b e' -> a = b /\ e = e'.
Proof.
  intros a b e e' A B E E' H. rewrite !library_eq in H.
  assert (X : e = e').
  { apply (f_equal (split dot)) in H. rewrite !app_assoc, !split_app in H.
    - rewrite !split_free in H by (apply (ext_free dot dot_in); assumption).
      apply (f_equal (fun l => nth 1 l [])) in H. exact H.
    - intros I. apply in_app_or in I. destruct I as [I|I]; [exact (lib_free dot dot_in e' I)|exact (B I)].
    - intros I. apply in_app_or in I. destruct I as [I|I]; [exact (lib_free dot dot_in e I)|exact (A I)]. }
  subst e'. split; [|reflexivity]. apply app_inv_head in H.
  apply (f_equal (fun l => split dot l)) in H. rewrite !split_app in H by assumption.
  apply (f_equal (fun l => hd [] l)) in H. exact H.
Qed.

Section Copies.
Variables (root : path) (crate target : str).
Let art := artifacts root.
Hypothesis dotfree : free_of dot (show_path art).
Hypothesis crate_dot : free_of dot crate.
Hypothesis crate_slash : free_of slash crate.
Hypothesis target_dot : free_of dot target.
Hypothesis target_slash : free_of slash target.
Hypothesis differ : crate <> target.

Definition src (e : str) : path := art ++ [library crate e].
Definition dst (e : str) : path := art ++ [library target e].

Lemma src_dst : forall e e', In e library_kinds -> In e' library_kinds -> src e <> dst e'.
Proof.
  intros e e' E E' H. unfold src, dst in H. apply app_inv_head in H.
  assert (Q : library crate e = library target e') by congruence.
  apply library_inj in Q; auto. destruct Q. contradiction.
Qed.
Lemma dst_dst : forall e e', In e library_kinds -> In e' library_kinds -> dst e = dst e' -> e = e'.
Proof.
  intros e e' E E' H. unfold dst in H. apply app_inv_head in H.
  assert (Q : library target e = library target e') by congruence.
  apply library_inj in Q; auto. destruct Q. assumption.
Qed.

Lemma copy_step : forall e f v, In e library_kinds -> read (src e) f = Some v ->
  copy_one art crate target (src e) f = Some (write (dst e) v f).
Proof.
  intros e f v E V. unfold copy_one.
  assert (EX : nth 1 (split dot (show_path (src e))) [] = e) by (apply found_ext; assumption).
  rewrite EX. rewrite <- !library_eq.
  rewrite !library_slash by assumption. fold (src e). fold (dst e). rewrite V.
  replace (dir_exists (parent (dst e)) f) with true; [reflexivity|].
  symmetry. unfold dir_exists. apply existsb_exists.
  assert (W : exists x, In x f /\ fst x = src e).
  { clear -V. induction f as [|[q w] f IH]; [discriminate V|]. cbn [read] in V.
    destruct (path_eqb (src e) q) eqn:Q.
    - apply peqb in Q. exists (q, w). split; [left; reflexivity|cbn [fst]; symmetry; exact Q].
    - destruct (IH V) as (x & I & X). exists x. split; [right; exact I|exact X]. }
  destruct W as (x & I & X). exists x. split; [exact I|].
  unfold parent, dst. rewrite snoc, X. apply under_app.
Qed.

Lemma copies : forall l f,
  Forall (fun p => exists e v, In e library_kinds /\ p = src e /\ read p f = Some v) l ->
  exists f', copy_all art crate target l f = (true, f') /\
    (forall e, In (src e) l -> In e library_kinds -> read (dst e) f' = read (src e) f) /\
    (forall p, (forall e, In e library_kinds -> In (src e) l -> p <> dst e) -> read p f' = read p f).
Proof.
  induction l as [|p l IH]; intros f F; cbn [copy_all].
  - exists f. split; [reflexivity|]. split; [intros e []|reflexivity].
  - apply Forall_cons_iff in F. destruct F as [(e & v & E & -> & V) F].
    rewrite (copy_step e f v E V).
    destruct (IH (write (dst e) v f)) as (f' & Q & D & O).
    { rewrite Forall_forall in F |- *. intros p P. destruct (F p P) as (e' & v' & E' & -> & V').
      exists e', v'. split; [exact E'|]. split; [reflexivity|].
      rewrite read_write_other; [exact V'|]. apply src_dst; assumption. }
    exists f'. split; [exact Q|]. split.
    + intros e' I E'. destruct (in_dec (list_eq_dec (list_eq_dec N.eq_dec)) (src e') l) as [I'|NI].
      * rewrite (D e' I' E'). apply read_write_other. apply src_dst; assumption.
      * destruct I as [I|I]; [|contradiction].
        assert (e' = e).
        { unfold src in I. apply app_inv_head in I. assert (X : library crate e = library crate e') by congruence.
          apply library_inj in X; auto. destruct X. congruence. }
        subst e'. rewrite O.
        -- rewrite read_write. symmetry. exact V.
        -- intros e'' E'' I'' X. apply dst_dst in X; auto. subst e''. contradiction.
    + intros p P. rewrite O.
      * apply read_write_other. apply P; [exact E|left; reflexivity].
      * intros e' E' I. apply P; [exact E'|right; exact I].
Qed.
End Copies.

Lemma read_in : forall p f v, read p f = Some v -> In p (map fst f).
Proof.
  induction f as [|[q w] f IH]; intros v H; cbn [read] in H; [discriminate H|].
  destruct (path_eqb p q) eqn:E; [apply peqb in E; left; cbn; congruence|right; eapply IH; exact H].
Qed.
Lemma in_read : forall p f, In p (map fst f) -> exists v, read p f = Some v.
Proof.
  induction f as [|[q w] f IH]; intros H; [destruct H|]. cbn [read].
  destruct (path_eqb p q) eqn:E; [eauto|]. destruct H as [H|H]; [|apply IH; exact H].
  cbn in H. subst q. rewrite peqb_refl in E. discriminate E.
Qed.

Lemma strip_app : forall p r, strip_prefix p (p ++ r) = Some r.
Proof. induction p as [|a p IH]; intros r; [reflexivity|]. cbn. rewrite N.eqb_refl. apply IH. Qed.
Lemma occurs_app : forall part a b, occurs part (a ++ part ++ b) = true.
Proof.
  intros part. induction a as [|c a IH]; intros b; cbn [app].
  - destruct (part ++ b) eqn:Q; cbn [occurs]; rewrite <- Q, strip_app; reflexivity.
  - cbn [occurs]. destruct (strip_prefix part (c :: a ++ part ++ b)); [reflexivity|apply IH].
Qed.

(** Every file in the directory of the native libraries whose path the pattern finds
    is the library of the crate. *)
Definition well_named (root : path) (crate : str) (f : fs) : Prop :=
  forall n v e a b, read (artifacts root ++ [n]) f = Some v -> In e library_kinds ->
    show_path (artifacts root ++ [n]) = a ++ crate ++ dot :: e ++ b ->
    exists e', In e' library_kinds /\ n = library crate e'.

Lemma occurs_spec : forall part s, occurs part s = true -> exists a b, s = a ++ part ++ b.
Proof.
  assert (P : forall p s r, strip_prefix p s = Some r -> s = p ++ r).
  { induction p as [|a p IH]; intros s r H; [cbn in *; congruence|].
    destruct s as [|b s]; [discriminate|]. cbn in H. destruct (N.eqb_spec a b); [|discriminate].
    subst. cbn. f_equal. auto. }
  intros part. induction s as [|c s IH]; intros H; cbn [occurs] in H.
  - destruct (strip_prefix part []) as [r|] eqn:E; [|discriminate H]. apply P in E. exists [], r. exact E.
  - destruct (strip_prefix part (c :: s)) as [r|] eqn:E; [apply P in E; exists [], r; exact E|].
    destruct (IH H) as (a & b & Q). exists (c :: a), b. rewrite Q. reflexivity.
Qed.

(** Before CppSharp runs for a crate, each library of the crate has been copied to the
    chosen name, with its extension and prefix, and nothing else has changed: for
    every project whose path has no dot. *)
Theorem C50_libraries_are_copied_partial : forall root crate target f,
  let art := root ++ map lit ["target"; "debug"] in
  free_of full_stop (path_text art) ->
  free_of full_stop crate -> free_of solidus crate -> free_of full_stop target -> free_of solidus target ->
  crate <> target -> well_named root crate f ->
  exists f', setup root crate target f = (true, f') /\
    (forall e v, In e library_kinds -> read (art ++ [library crate e]) f = Some v ->
       read (art ++ [library target e]) f' = Some v) /\
    (forall p, (forall e, In e library_kinds -> read (art ++ [library crate e]) f <> None ->
                 p <> art ++ [library target e]) -> read p f' = read p f).
Proof.
  intros root crate target f art D Cd Cs Td Ts N W. subst art.
  change (root ++ map lit ["target"; "debug"]) with (artifacts root) in *.
  change full_stop with dot in *. change solidus with slash in *. rewrite path_text_show in D. unfold setup.
  replace (str_eqb crate target) with false
    by (destruct (str_eqb crate target) eqn:E; [apply seqb in E; contradiction|reflexivity]).
  set (l := filter (matches crate) (files_of (artifacts root) f)).
  assert (IN : forall p, In p l <-> exists e v, In e library_kinds /\ p = src root crate e /\ read p f = Some v).
  { intros p. split.
    - intros I. apply filter_In in I. destruct I as [I M]. apply filter_In in I. destruct I as [I U].
      apply Bool.andb_true_iff in U. destruct U as [U L]. apply Nat.eqb_eq in L.
      apply under_spec in U. destruct U as [r ->]. rewrite app_length in L.
      destruct r as [|n [|]]; cbn in L; try lia.
      apply in_read in I. destruct I as [v V].
      apply existsb_exists in M. destruct M as (e & E & M). apply occurs_spec in M. destruct M as (a & b & M).
      rewrite <- app_assoc in M. destruct (W n v e a b V E M) as (e' & E' & ->). exists e', v. auto.
    - intros (e & v & E & -> & V). apply filter_In. split.
      + apply filter_In. split; [eapply read_in; exact V|]. apply Bool.andb_true_iff. split; [apply under_app|].
        unfold src. rewrite app_length. cbn. apply Nat.eqb_eq. lia.
      + apply existsb_exists. exists e. split; [exact E|]. unfold src. rewrite show_app.
        unfold show_path at 2. cbn [flat_map]. rewrite app_nil_r. rewrite ?library_eq.
        replace (show_path (artifacts root) ++ slash :: (if str_eqb e (lit "dll") then [] else lit "lib") ++ crate ++ dot :: e)
          with ((show_path (artifacts root) ++ slash :: (if str_eqb e (lit "dll") then [] else lit "lib"))
                ++ (crate ++ dot :: e) ++ []).
        * apply occurs_app.
        * rewrite app_nil_r, <- app_assoc. reflexivity. }
  destruct (copies root crate target D Cd Cs Td Ts N l f) as (f' & Q & DD & O).
  { apply Forall_forall. intros p P. apply IN in P. destruct P as (e & v & E & -> & V). eauto. }
  exists f'. split; [exact Q|]. split.
  - intros e v E V. rewrite <- V. apply (DD e); [|exact E]. apply IN. exists e, v. auto.
  - intros p P. apply O. intros e E I. apply P; [exact E|]. apply IN in I.
    destruct I as (e' & v & E' & X & V). unfold src in V. rewrite V. discriminate.
Qed.
Print Assumptions C50_libraries_are_copied_partial.

(** ** A project whose path has a dot *)

Lemma split_into : forall c x s, free_of c x -> exists h t, split c s = h :: t /\ split c (x ++ s) = (x ++ h) :: t.
Proof.
  intros c. induction x as [|a x IH]; intros s F.
  - destruct (split c s) as [|h t] eqn:E; [destruct (split_nonempty c s E)|]. exists h, t. split; [reflexivity|exact E].
  - destruct (IH s) as (h & t & E & E'); [intros I; apply F; right; exact I|].
    exists h, t. split; [exact E|]. cbn [app split].
    destruct (N.eqb_spec a c) as [->|]; [destruct F; left; reflexivity|]. rewrite E'. reflexivity.
Qed.
Lemma split_twice : forall c x s, exists a b r, split c (x ++ c :: s) = a :: b :: r.
Proof.
  intros c. induction x as [|a x IH]; intros s; cbn [app split].
  - rewrite N.eqb_refl. destruct (split c s) as [|h t] eqn:E; [destruct (split_nonempty c s E)|]. exists [], h, t. reflexivity.
  - destruct (IH s) as (p & q & r & E). rewrite E. destruct (N.eqb a c); eauto.
Qed.

(** Claim: the bindings are generated wherever the project is.  False: the extension is
    taken to be what follows the first dot of the whole path.  If a directory above has
    a dot in its name, the copy fails -- after the bindings of the client have been
    deleted. *)
Theorem C50_dotted_project_fails_refuted : forall assembly over cpp f a b e v,
  let root := project_dir assembly in
  let art := root ++ map lit ["target"; "debug"] in
  path_text art = a ++ full_stop :: b -> free_of full_stop a -> free_of full_stop b ->
  chosen over <> lit "tp_client" ->
  In e library_kinds -> read (art ++ [library (lit "tp_client") e]) f = Some v ->
  (forall x y r, read (art ++ x :: y :: r) f <> None ->
     forall t, x <> lit "tp_client." ++ t /\ x <> lit "libtp_client." ++ t) ->
  exists f', main assembly 0 over cpp f = (None, f') /\
    forall r, read (root ++ map lit ["client"; "cs"; "src"; "generated"; "cpp_sharp"] ++ r) f' = None.
Proof.
  intros assembly over cpp f a b e v root art P A B T E V S. subst root.
  change full_stop with dot in *. rewrite path_text_show in P.
  assert (ART : art = artifacts (project_dir assembly)) by reflexivity.
  unfold main. fold (chosen over). unfold libs. cbn [run_libs].
  set (out := project_dir assembly ++ map lit ["client"; "cs"; "src"; "generated"; "cpp_sharp"]).
  set (crate := lit "tp_client") in *. unfold run_lib at 1. cbn [fst snd].
  set (g := filter (fun x => negb (under out (fst x))) f).
  assert (U : under out (art ++ [library crate e]) = false).
  { apply (apart_under art out); [|apply under_app]. apply apart_sym.
    apply (proj1 (C50_directories_are_apart (project_dir assembly)) (out, crate)).
    - left. reflexivity.
    - right. right. left. reflexivity. }
  assert (V' : read (art ++ [library crate e]) g = Some v) by (unfold g; rewrite read_delete, U; exact V).
  assert (F : setup (project_dir assembly) crate (chosen over) g = (false, g)).
  { unfold setup. replace (str_eqb crate (chosen over)) with false
      by (destruct (str_eqb crate (chosen over)) eqn:Q; [apply seqb in Q; congruence|reflexivity]).
    rewrite <- ART.
    destruct (filter (matches crate) (files_of art g)) as [|p l] eqn:Q.
    { exfalso. assert (I : In (art ++ [library crate e]) (filter (matches crate) (files_of art g))).
      { apply filter_In. split.
        - apply filter_In. split; [eapply read_in; exact V'|]. apply Bool.andb_true_iff. split; [apply under_app|].
          rewrite app_length. cbn [length]. apply Nat.eqb_eq. lia.
        - apply existsb_exists. exists e. split; [exact E|]. rewrite show_app. unfold show_path at 2.
          cbn [flat_map]. rewrite app_nil_r. rewrite ?library_eq.
          replace (show_path art ++ slash :: (if str_eqb e (lit "dll") then [] else lit "lib") ++ crate ++ dot :: e)
            with ((show_path art ++ slash :: (if str_eqb e (lit "dll") then [] else lit "lib"))
                  ++ (crate ++ dot :: e) ++ []); [apply occurs_app|].
          rewrite app_nil_r, <- app_assoc. reflexivity. }
      rewrite Q in I. destruct I. }
    assert (I : In p (filter (matches crate) (files_of art g))) by (rewrite Q; left; reflexivity).
    apply filter_In in I. destruct I as [I _]. apply filter_In in I. destruct I as [_ L].
    apply Bool.andb_true_iff in L. destruct L as [W L]. apply Nat.eqb_eq in L.
    apply under_spec in W. destruct W as [r ->]. rewrite app_length in L.
    destruct r as [|n [|]]; cbn [length] in L; try lia.
    cbn [copy_all]. unfold copy_one.
    assert (X : exists w, nth 1 (split dot (show_path (art ++ [n]))) [] = b ++ slash :: w).
    { assert (Y : show_path (art ++ [n]) = a ++ dot :: b ++ slash :: n)
        by (rewrite show_app, P, <- app_assoc; unfold show_path; cbn [flat_map app]; rewrite app_nil_r; reflexivity).
      rewrite Y, split_app by exact A. cbn [nth].
      destruct (split_into dot b (slash :: n) B) as (h & t & H & H'). rewrite H'. cbn [nth].
      cbn [split] in H. replace (N.eqb slash dot) with false in H by reflexivity.
      destruct (split dot n) as [|w ws]; [exists []|exists w]; congruence. }
    destruct X as [w X]. rewrite X.
    set (pre := if str_eqb (b ++ slash :: w) (lit "dll") then [] else lit "lib").
    assert (R : read (art ++ split slash (pre ++ crate ++ dot :: b ++ slash :: w)) g = None).
    { replace (pre ++ crate ++ dot :: b ++ slash :: w) with ((pre ++ crate ++ [dot]) ++ b ++ slash :: w)
        by (rewrite <- !app_assoc; reflexivity).
      assert (NS : free_of slash (pre ++ crate ++ [dot])).
      { intros I. apply in_app_or in I. destruct I as [I|I]; [exact (lib_free slash slash_in _ I)|].
        assert (Z : existsb (N.eqb slash) (crate ++ [dot]) = true)
          by (apply existsb_exists; exists slash; split; [exact I|apply N.eqb_refl]).
        vm_compute in Z. discriminate Z. }
      destruct (split_into slash (pre ++ crate ++ [dot]) (b ++ slash :: w) NS) as (h & t & H & H').
      destruct (split_twice slash b w) as (x & y & r & H''). rewrite H'' in H.
      assert (t = y :: r) by congruence. subst t. rewrite H'.
      unfold g. rewrite read_delete. match goal with |- (if ?c then _ else _) = _ => destruct c; [reflexivity|] end.
      destruct (read (art ++ ((pre ++ crate ++ [dot]) ++ h) :: y :: r) f) as [u|] eqn:RR; [|reflexivity].
      exfalso. assert (NN : read (art ++ ((pre ++ crate ++ [dot]) ++ h) :: y :: r) f <> None) by congruence.
      destruct (S _ _ _ NN h) as [S1 S2]. subst pre.
      destruct (str_eqb (b ++ slash :: w) (lit "dll")); [apply S1|apply S2]; reflexivity. }
    rewrite R. reflexivity. }
  rewrite F. exists g. split; [reflexivity|].
  intros r. rewrite app_assoc. fold out. unfold g. rewrite read_delete, under_app. reflexivity.
Qed.
Print Assumptions C50_dotted_project_fails_refuted.

(** ** The crate with the chosen name *)

Lemma suffix_last : forall (a b x y : str) (u v : N), a ++ x ++ [u] = b ++ y ++ [v] -> u = v.
Proof. intros a b x y u v H. rewrite !app_assoc in H. apply app_inj_tail in H. exact (proj2 H). Qed.

Lemma only_one : forall (c : N) p q r s, p ++ c :: q = r ++ c :: s -> free_of c p -> free_of c q -> p = r.
Proof.
  intros c. induction p as [|x p IH]; intros q r s H P Q; destruct r as [|y r]; cbn [app] in H.
  - reflexivity.
  - exfalso. apply Q. assert (q = r ++ c :: s) by congruence. subst q. apply in_or_app. right. left. reflexivity.
  - exfalso. apply P. left. congruence.
  - assert (x = y) by congruence. subst y. f_equal. apply (IH q r s); [congruence| |exact Q].
    intros I. apply P. right. exact I.
Qed.

(** Files with the chosen name are not taken for libraries of a crate whose name ends
    otherwise. *)
Lemma well_named_kept : forall root crate target x y u w f f',
  free_of dot (show_path (artifacts root)) -> free_of dot target -> free_of dot crate ->
  crate = x ++ [u] -> target = y ++ [w] -> u <> w ->
  (forall n, read (artifacts root ++ [n]) f' = read (artifacts root ++ [n]) f \/
             exists e, In e library_kinds /\ n = library target e) ->
  well_named root crate f -> well_named root crate f'.
Proof.
  intros root crate target x y u w f f' D Td Cd Hc Ht N K W n v e a b R E S.
  destruct (K n) as [K'|(e' & E' & ->)]; [rewrite K' in R; eapply W; eauto|].
  exfalso. apply N. set (pre := if str_eqb e' (lit "dll") then [] else lit "lib").
  assert (Q : show_path (artifacts root ++ [library target e'])
              = (show_path (artifacts root) ++ slash :: pre ++ target) ++ dot :: e').
  { rewrite show_app. rewrite ?library_eq. unfold show_path at 2. cbn [flat_map]. fold pre.
    rewrite app_nil_r, <- !app_assoc. cbn [app]. rewrite <- !app_assoc. reflexivity. }
  assert (F : free_of dot (show_path (artifacts root) ++ slash :: pre ++ target)).
  { intros I. apply in_app_or in I. destruct I as [I|[I|I]]; [exact (D I)|discriminate I|].
    apply in_app_or in I. destruct I as [I|I]; [exact (lib_free dot dot_in e' I)|exact (Td I)]. }
  rewrite Q in S.
  assert (H : show_path (artifacts root) ++ slash :: pre ++ target = a ++ crate).
  { replace (a ++ crate ++ dot :: e ++ b) with ((a ++ crate) ++ dot :: e ++ b) in S by (rewrite <- app_assoc; reflexivity).
    apply only_one in S; [exact S|exact F|]. apply (ext_free dot dot_in). exact E'. }
  rewrite Hc, Ht in H. symmetry.
  replace (show_path (artifacts root) ++ slash :: pre ++ y ++ [w])
    with ((show_path (artifacts root) ++ slash :: pre) ++ y ++ [w]) in H by (rewrite <- app_assoc; reflexivity).
  eapply suffix_last. exact H.
Qed.

Lemma run_lib_ok : forall root target cpp l f g,
  setup root (snd l) target (filter (fun e => negb (under (fst l) (fst e))) f) = (true, g) ->
  run_lib root target cpp l f = (true, emit (fst l) (cpp (snd l) g) g).
Proof. intros root target cpp l f g E. unfold run_lib. rewrite E. reflexivity. Qed.

Definition lib_so (root : path) (crate e : str) : path := root ++ map lit ["target"; "debug"] ++ [library crate e].

(** Claim (Main.cs:138-139): the copies are used by this program only.  False: the
    chosen name is by default that of a crate of the project, and the library of that
    crate is overwritten: first by that of the client -- it is this that CppSharp then
    takes for the crate's own -- and then by that of the example contract. *)
Theorem C50_real_library_overwritten_refuted : forall assembly cpp f e1 v1 e3 v3,
  let root := project_dir assembly in
  free_of dot (show_path (artifacts root)) ->
  well_named root (lit "tp_client") f -> well_named root (lit "tp_contract_example") f ->
  In e1 library_kinds -> read (lib_so root (lit "tp_client") e1) f = Some v1 ->
  In e3 library_kinds -> read (lib_so root (lit "tp_contract_example") e3) f = Some v3 ->
  exists seen f', main assembly 0 None cpp f = (Some 0, f') /\
    read (lib_so root (lit "unity_states") e3) f' = Some v3 /\
    read (lib_so root (lit "unity_states") e1) seen = Some v1 /\
    forall r, read (root ++ map lit ["demos"; "unity_states"; "cs"; "src"; "generated"; "cpp_sharp"] ++ r) f'
              = read r (written (cpp (lit "unity_states") seen)).
Proof.
  intros assembly cpp f e1 v1 e3 v3 root D W1 W3 E1 V1 E3 V3.
  set (art := artifacts root).
  assert (LS : forall c e, lib_so root c e = art ++ [library c e]).
  { intros c e. unfold lib_so, art, artifacts. rewrite app_assoc. reflexivity. }
  rewrite LS in V1, V3.
  destruct (C50_directories_are_apart root) as [A1 A2].
  set (l1 := (root ++ map lit ["client"; "cs"; "src"; "generated"; "cpp_sharp"], lit "tp_client")).
  set (l2 := (root ++ map lit ["demos"; "unity_states"; "cs"; "src"; "generated"; "cpp_sharp"], lit "unity_states")).
  set (l3 := (root ++ map lit ["client"; "contract_example"; "cs"; "src"; "generated"; "cpp_sharp"], lit "tp_contract_example")).
  assert (LB : bindings root = [l1; l2; l3]) by reflexivity.
  assert (LB' : libs root = [l1; l2; l3]) by reflexivity.
  assert (OUT : forall l r, In l [l1; l2; l3] -> under (fst l) (art ++ r) = false).
  { intros l r L. apply (apart_under art (fst l)); [|apply under_app]. apply apart_sym.
    apply (A1 l); [rewrite LB; exact L|]. right. right. left. reflexivity. }
  assert (DEL : forall l r f, In l [l1; l2; l3] ->
    read (art ++ r) (filter (fun e => negb (under (fst l) (fst e))) f) = read (art ++ r) f).
  { intros l r f0 L. rewrite read_delete, OUT by exact L. reflexivity. }
  assert (EMIT : forall l o r f, In l [l1; l2; l3] -> read (art ++ r) (emit (fst l) o f) = read (art ++ r) f).
  { intros l o r f0 L. apply emit_frame. apply OUT. exact L. }
  assert (NW : forall c f g, (forall n, read (art ++ [n]) g = read (art ++ [n]) f) -> well_named root c f -> well_named root c g).
  { intros c f0 g H W n v e a b R. fold art in R. rewrite H in R. eapply W. exact R. }
  assert (I1 : In l1 [l1; l2; l3]) by (left; reflexivity).
  assert (I2 : In l2 [l1; l2; l3]) by (right; left; reflexivity).
  assert (I3 : In l3 [l1; l2; l3]) by (right; right; left; reflexivity).
  assert (FR : forall c s, existsb (N.eqb c) s = false -> free_of c s).
  { intros c s H I. assert (X : existsb (N.eqb c) s = true)
      by (apply existsb_exists; exists c; split; [exact I|apply N.eqb_refl]). congruence. }
  set (U := lit "unity_states").
  assert (Ud : free_of dot U) by (apply FR; reflexivity). assert (Us : free_of slash U) by (apply FR; reflexivity).
  (* the client *)
  set (g0 := filter (fun e => negb (under (fst l1) (fst e))) f).
  destruct (C50_libraries_are_copied_partial root (lit "tp_client") U g0 D) as (g1 & S1 & C1 & O1);
    try assumption; try (apply FR; reflexivity).
  { intros H. apply seqb in H. discriminate H. }
  { apply (NW _ f); [|exact W1]. intros n. apply DEL. exact I1. }
  fold art in C1, O1.
  set (h1 := emit (fst l1) (cpp (snd l1) g1) g1).
  assert (R1 : run_lib root U cpp l1 f = (true, h1)) by (apply run_lib_ok; exact S1).
  assert (X1 : read (art ++ [library U e1]) h1 = Some v1).
  { unfold h1. rewrite EMIT by exact I1. apply C1; [exact E1|]. unfold g0. rewrite DEL by exact I1. exact V1. }
  assert (Y1 : forall n, read (art ++ [n]) h1 = read (art ++ [n]) f \/ exists e, In e library_kinds /\ n = library U e).
  { intros n. destruct (existsb (fun e => str_eqb n (library U e)) library_kinds) eqn:Q.
    - right. apply existsb_exists in Q. destruct Q as (e & E & Q). apply seqb in Q. eauto.
    - left. unfold h1. rewrite EMIT by exact I1. rewrite O1; [unfold g0; apply DEL; exact I1|].
      intros e E _ H. apply app_inv_head in H. assert (X : n = library U e) by congruence.
      assert (Z : existsb (fun e => str_eqb n (library U e)) library_kinds = true)
        by (apply existsb_exists; exists e; split; [exact E|apply seqb; exact X]). congruence. }
  (* the crate with the chosen name *)
  set (g2 := filter (fun e => negb (under (fst l2) (fst e))) h1).
  assert (S2 : setup root (snd l2) U g2 = (true, g2)) by reflexivity.
  set (h2 := emit (fst l2) (cpp (snd l2) g2) g2).
  assert (R2 : run_lib root U cpp l2 h1 = (true, h2)) by (apply run_lib_ok; exact S2).
  assert (Y2 : forall n, read (art ++ [n]) h2 = read (art ++ [n]) h1).
  { intros n. unfold h2. rewrite EMIT by exact I2. unfold g2. apply DEL. exact I2. }
  (* the example *)
  set (g3 := filter (fun e => negb (under (fst l3) (fst e))) h2).
  assert (Y3 : forall n, read (art ++ [n]) g3 = read (art ++ [n]) h1).
  { intros n. unfold g3. rewrite DEL by exact I3. apply Y2. }
  assert (W3' : well_named root (lit "tp_contract_example") g3).
  { apply (NW _ h1); [exact Y3|].
    eapply (well_named_kept root (lit "tp_contract_example") U
              (lit "tp_contract_exampl") (lit "unity_state") 101%N 115%N f h1 D Ud); try assumption.
    - apply FR; reflexivity.
    - reflexivity.
    - reflexivity.
    - discriminate. }
  destruct (C50_libraries_are_copied_partial root (lit "tp_contract_example") U g3 D) as (g4 & S3 & C3 & O3);
    try assumption; try (apply FR; reflexivity).
  { intros H. apply seqb in H. discriminate H. }
  fold art in C3, O3.
  set (h3 := emit (fst l3) (cpp (snd l3) g4) g4).
  assert (R3 : run_lib root U cpp l3 h2 = (true, h3)) by (apply run_lib_ok; exact S3).
  exists g2, h3. split; [|split; [|split]].
  - unfold main. fold root. rewrite LB'. fold U. cbn [run_libs]. rewrite R1, R2, R3. reflexivity.
  - rewrite LS. unfold h3. rewrite EMIT by exact I3. apply C3; [exact E3|]. rewrite Y3.
    destruct (Y1 (library (lit "tp_contract_example") e3)) as [Z|(e & E & Z)]; [rewrite Z; exact V3|].
    apply library_inj in Z; try assumption; try (apply FR; reflexivity).
    destruct Z as [Z _]. apply seqb in Z. discriminate Z.
  - rewrite LS. unfold g2. rewrite DEL by exact I2. exact X1.
  - intros r. rewrite app_assoc.
    assert (AP : apart (fst l2) art).
    { apply (A1 l2); [rewrite LB; exact I2|]. right. right. left. reflexivity. }
    change (root ++ map lit ["demos"; "unity_states"; "cs"; "src"; "generated"; "cpp_sharp"]) with (fst l2).
    unfold h3. rewrite emit_frame.
    + rewrite (setup_frame _ _ _ _ _ _ (fst l2 ++ r) S3).
      * unfold g3. rewrite read_delete.
        replace (under (fst l3) (fst l2 ++ r)) with false.
        -- unfold h2. apply emit_inside. intros r'. unfold g2. rewrite read_delete, under_app. reflexivity.
        -- symmetry. apply (apart_under (fst l2) (fst l3)); [|apply under_app].
           apply (A2 1 2 l2 l3); try (rewrite LB; reflexivity). discriminate.
      * intros C. apply copy_name_under in C. apply under_spec in C. destruct C as [t C]. exact (AP r t C).
    + apply (apart_under (fst l2) (fst l3)); [|apply under_app].
      apply (A2 1 2 l2 l3); try (rewrite LB; reflexivity). discriminate.
Qed.
Print Assumptions C50_real_library_overwritten_refuted.

(** The hypotheses are met: a project in /home/u/c, where the chosen name is the
    default; and one in /home/u/my.app. *)
Definition ex_assembly (dir : str) : path :=
  map lit ["home"; "u"] ++ [dir]
    ++ map lit ["client"; "codegen_pinvoke"; "bin"; "Debug"; "net5.0"; "codegen_pinvoke.dll"].
Definition ex_files (dir : str) : fs :=
  let at_ l := map lit ["home"; "u"] ++ dir :: map lit l in
  [ (at_ ["target"; "debug"; "libtp_client.so"], lit "client");
    (at_ ["target"; "debug"; "libtp_client.d"], lit "make");
    (at_ ["target"; "debug"; "libunity_states.so"], lit "states");
    (at_ ["target"; "debug"; "libtp_contract_example.so"], lit "example");
    (at_ ["client"; "cs"; "src"; "generated"; "cpp_sharp"; "old.cs"], lit "old") ].
Definition ex_cpp : generator := fun crate f =>
  [([crate ++ lit ".cs"],
    match read (map lit ["home"; "u"; "c"; "target"; "debug"; "libunity_states.so"]) f with Some v => v | None => [] end)].

Example C50_met :
  project_dir (ex_assembly (lit "c")) = map lit ["home"; "u"; "c"] /\
  free_of dot (show_path (artifacts (map lit ["home"; "u"; "c"]))) /\
  well_named (map lit ["home"; "u"; "c"]) (lit "tp_client") (ex_files (lit "c")) /\
  (let f' := snd (main (ex_assembly (lit "c")) 0 None ex_cpp (ex_files (lit "c"))) in
   read (map lit ["home"; "u"; "c"; "target"; "debug"; "libunity_states.so"]) f' = Some (lit "example") /\
   read (map lit ["home"; "u"; "c"; "demos"; "unity_states"; "cs"; "src"; "generated"; "cpp_sharp"; "unity_states.cs"]) f'
     = Some (lit "client") /\
   read (map lit ["home"; "u"; "c"; "client"; "cs"; "src"; "generated"; "cpp_sharp"; "old.cs"]) f' = None /\
   read (map lit ["home"; "u"; "c"; "target"; "debug"; "libtp_client.d"]) f' = Some (lit "make")) /\
  fst (main (ex_assembly (lit "my.app")) 0 None ex_cpp (ex_files (lit "my.app"))) = None.
Proof.
  split; [vm_compute; reflexivity|]. split.
  { intros I. assert (X : existsb (N.eqb dot) (show_path (artifacts (map lit ["home"; "u"; "c"]))) = true)
      by (apply existsb_exists; exists dot; split; [exact I|apply N.eqb_refl]). vm_compute in X. discriminate X. }
  split.
  { intros n v e a b R E S. apply read_in in R.
    assert (O : matches (lit "tp_client") (artifacts (map lit ["home"; "u"; "c"]) ++ [n]) = true).
    { apply existsb_exists. exists e. split; [exact E|]. rewrite S.
      replace (a ++ lit "tp_client" ++ dot :: e ++ b) with (a ++ (lit "tp_client" ++ dot :: e) ++ b)
        by (rewrite <- app_assoc; reflexivity). apply occurs_app. }
    assert (K : forallb (fun p => implb (under (artifacts (map lit ["home"; "u"; "c"])) p && matches (lit "tp_client") p)%bool
                                        (path_eqb p (artifacts (map lit ["home"; "u"; "c"]) ++ [library (lit "tp_client") (lit "so")])))
                        (map fst (ex_files (lit "c"))) = true) by (vm_compute; reflexivity).
    rewrite forallb_forall in K. specialize (K _ R). rewrite O, under_app in K. cbn [andb implb] in K.
    apply peqb in K. apply app_inv_head in K. exists (lit "so"). split; [left; reflexivity|congruence]. }
  vm_compute. repeat split; reflexivity.
Qed.
