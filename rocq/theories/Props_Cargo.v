(** Property C48: a change of TAGGED_BOX_RESERVED_WIDTH does not reach a later build. *)
From Coq Require Import NArith List String Ascii Bool Lia.
From Verif Require Import Words Config Spec ConfigFacts Pointer Mem Box Macro SpecMacro Containers SpecContainers Props_Pointer
  Bump Tests Props_Containers Props_Tests Cargo.
Import ListNotations.
Local Open Scope N_scope.

(** ** What a user sees: which value of the variable a build goes by *)

(** For each kind of build the files and the value at the time of the build that counts. *)
Definition counted := string -> option (files * option string).

(** Per build of the history, the value it goes by: that of the last earlier build of its kind since
    whose beginning no file changed, if that build itself did not go by an earlier one. *)
Fixpoint goes_by (l : list action) (f : files) (m : counted) : list (option string) :=
  match l with
  | [] => []
  | Edit g :: r => goes_by r g m
  | Clean :: r => goes_by r f (fun _ => None)
  | Build k e :: r =>
      let new := e variable :: goes_by r f (fun k' => if String.eqb k' k then Some (f, e variable) else m k') in
      match m k with
      | Some (g, v) => if same_files g f then v :: goes_by r f m else new
      | None => new
      end
  end.

Definition plain_values (l : list action) : Prop :=
  forall k e, In (Build k e) l -> line_break_free (e variable).

(** ** The script's output names no dependency *)

Lemma same_files_refl f : same_files f f = true.
Proof. induction f as [|[p v] f IH]; cbn; [reflexivity|]. rewrite String.eqb_refl, N.eqb_refl. exact IH. Qed.

Lemma no_deps v : line_break_free v ->
  env_deps (stdout_of (build_rs v)) = [] /\ file_deps (stdout_of (build_rs v)) = [].
Proof.
  destruct v as [s|]; [|intros _; vm_compute; auto]. intros Hn. apply no_nl_spec in Hn.
  unfold env_deps, file_deps. destruct (documented_dec s) as [D|D].
  - apply documented_width in D. destruct D as [w D]. cbn [documented In] in D.
    repeat match type of D with _ \/ _ => destruct D as [D|D] | False => destruct D end;
      injection D as <- _; vm_compute; auto.
  - rewrite (build_rs_fallback s D), split_stdout; [split; reflexivity|].
    cbn [forallb]. rewrite !no_nl_app, Hn. reflexivity.
Qed.

(** The remembered runs belong to the builds that count. *)
Definition matches (runs : string -> option script_run) (m : counted) : Prop :=
  forall k, match runs k, m k with
    | Some r, Some (f, v) => sr_files r = f /\ sr_out r = stdout_of (build_rs v) /\ line_break_free v
    | None, None => True
    | _, _ => False
    end.

Lemma fresh_plain r f e v : sr_out r = stdout_of (build_rs v) -> line_break_free v -> fresh r f e = same_files (sr_files r) f.
Proof. intros H L. unfold fresh. rewrite H. destruct (no_deps v L) as [-> ->]. reflexivity. Qed.

Theorem C48_exact : forall l f runs m, matches runs m -> plain_values l ->
  fst (history build_rs l (Workspace f runs)) = map active_cfgs (goes_by l f m).
Proof.
  induction l as [|a l IH]; intros f runs m M P; [reflexivity|].
  assert (P' : plain_values l) by (intros k e H; apply (P k e); right; exact H).
  destruct a as [k e|g|]; cbn [history act goes_by].
  - assert (L : line_break_free (e variable)) by (apply (P k e); left; reflexivity).
    cbn [ws_files ws_runs].
    assert (New : forall r, r = ScriptRun f e (stdout_of (build_rs (e variable))) ->
      matches (remember k r runs) (fun k' => if String.eqb k' k then Some (f, e variable) else m k')).
    { intros r -> k'. unfold remember. destruct (String.eqb k' k); [cbn; auto|apply M]. }
    pose proof (M k) as Mk. destruct (runs k) as [r|], (m k) as [[g v]|]; try contradiction.
    + destruct Mk as (F1 & F2 & F3). rewrite (fresh_plain r f e v F2 F3), F1. destruct (same_files g f).
      * specialize (IH f runs m M P'). destruct (history build_rs l (Workspace f runs)) as [cs w2]. cbn [fst] in *.
        rewrite IH. cbn [map]. rewrite F2. reflexivity.
      * specialize (IH f _ _ (New _ eq_refl) P').
        destruct (history build_rs l (Workspace f (remember k (ScriptRun f e (stdout_of (build_rs (e variable)))) runs))) as [cs w2].
        cbn [fst] in *. rewrite IH. reflexivity.
    + specialize (IH f _ _ (New _ eq_refl) P').
      destruct (history build_rs l (Workspace f (remember k (ScriptRun f e (stdout_of (build_rs (e variable)))) runs))) as [cs w2].
      cbn [fst] in *. rewrite IH. reflexivity.
  - specialize (IH g runs m M P'). cbn [ws_runs]. destruct (history build_rs l (Workspace g runs)) as [cs w2]. exact IH.
  - cbn [ws_files]. assert (M0 : matches (fun _ => None) (fun _ => None)) by (intros k; exact I).
    specialize (IH f _ _ M0 P'). destruct (history build_rs l (Workspace f (fun _ => None))) as [cs w2]. exact IH.
Qed.

(** Builds of one kind after each other all go by the first. *)
Theorem C48_stale : forall k e es f runs, runs k = None -> line_break_free (e variable) ->
  fst (history build_rs (map (Build k) (e :: es)) (Workspace f runs)) = map (fun _ => active_cfgs (e variable)) (e :: es).
Proof.
  intros k e es f runs Hr L. cbn [map history act]. cbn [ws_runs ws_files]. rewrite Hr.
  set (r := ScriptRun f e (stdout_of (build_rs (e variable)))).
  assert (H : history build_rs (map (Build k) es) (Workspace f (remember k r runs))
    = (map (fun _ => active_cfgs (e variable)) es, Workspace f (remember k r runs))).
  { induction es as [|e' es IH]; [reflexivity|]. cbn [map history act ws_runs ws_files]. unfold remember at 1.
    rewrite String.eqb_refl, (fresh_plain r f e' (e variable) eq_refl L). cbn [sr_files r]. rewrite same_files_refl, IH. reflexivity. }
  rewrite H. reflexivity.
Qed.

(** A user sets the variable and builds; the build goes by what they set before. *)
Theorem C48_refuted : ~ forall k e1 e2 f, line_break_free (e1 variable) -> line_break_free (e2 variable) ->
  fst (history build_rs [Build k e1; Build k e2] (Workspace f (fun _ => None)))
    = [active_cfgs (e1 variable); active_cfgs (e2 variable)].
Proof.
  intros H. specialize (H "debug"%string (fun _ => None) (fun _ => Some "48bits"%string) [] Logic.I).
  cbn [line_break_free] in H. specialize (H ltac:(cbn; intuition discriminate)).
  apply (f_equal (map setting)) in H. vm_compute in H. discriminate H.
Qed.

(** After [cargo clean], or when a file changed, a build goes by the present value. *)
Theorem C48_clean : forall k e w f,
  fst (history build_rs [Clean; Build k e] w) = [active_cfgs (e variable)] /\
  (forall r v, ws_runs w k = Some r -> sr_out r = stdout_of (build_rs v) -> line_break_free v ->
     same_files (sr_files r) f = false -> fst (history build_rs [Edit f; Build k e] w) = [active_cfgs (e variable)]).
Proof.
  intros k e w f. split; [reflexivity|]. intros r v Hr Ho L D. cbn [history act ws_runs ws_files].
  rewrite Hr, (fresh_plain r f e v Ho L), D. reflexivity.
Qed.

(** With the line cargo's documentation asks for every build would go by the present value. *)
Fixpoint asked (l : list action) : list (option string) :=
  match l with Build _ e :: r => e variable :: asked r | _ :: r => asked r | [] => [] end.

Lemma repaired_cfgs v : cargo_cfgs (stdout_of (repaired v)) = active_cfgs v.
Proof. reflexivity. Qed.

Lemma same_value_sound a b : same_value a b = true -> a = b.
Proof. destruct a, b; cbn; try discriminate; [|reflexivity]. intros H. apply String.eqb_eq in H. congruence. Qed.

Theorem C48_repaired : forall l f,
  fst (history repaired l (Workspace f (fun _ => None))) = map active_cfgs (asked l).
Proof.
  assert (H : forall l w, (forall k r, ws_runs w k = Some r -> sr_out r = stdout_of (repaired (sr_env r variable))) ->
    fst (history repaired l w) = map active_cfgs (asked l)).
  { induction l as [|a l IH]; intros w Hw; [reflexivity|]. destruct a as [k e|g|]; cbn [history act asked map].
    - set (r := ScriptRun (ws_files w) e (stdout_of (repaired (e variable)))).
      assert (New : fst (let (cs, w2) := history repaired l (Workspace (ws_files w) (remember k r (ws_runs w))) in
        (cargo_cfgs (sr_out r) :: cs, w2)) = active_cfgs (e variable) :: map active_cfgs (asked l)).
      { specialize (IH (Workspace (ws_files w) (remember k r (ws_runs w)))).
        destruct (history repaired l _) as [cs w2]. cbn [fst] in *. rewrite IH; [reflexivity|].
        intros k' r'. cbn [ws_runs]. unfold remember. destruct (String.eqb k' k); [|apply Hw].
        intros X. injection X as <-. reflexivity. }
      destruct (ws_runs w k) as [r0|] eqn:R; [|exact New].
      destruct (fresh r0 (ws_files w) e) eqn:Fr; [|exact New].
      specialize (IH w Hw). destruct (history repaired l w) as [cs w2]. cbn [fst] in *. rewrite IH, (Hw k r0 R), repaired_cfgs.
      assert (S : sr_env r0 variable = e variable).
      { unfold fresh in Fr. rewrite (Hw k r0 R) in Fr.
        change (env_deps (stdout_of (repaired (sr_env r0 variable))))
          with (variable :: env_deps (stdout_of (build_rs (sr_env r0 variable)))) in Fr.
        cbv iota in Fr. apply andb_true_iff in Fr. destruct Fr as [Fr _]. cbn [forallb] in Fr.
        apply andb_true_iff in Fr. apply same_value_sound, Fr. }
      rewrite S. reflexivity.
    - specialize (IH (Workspace g (ws_runs w)) Hw). destruct (history repaired l (Workspace g (ws_runs w))) as [cs w2]. exact IH.
    - specialize (IH (Workspace (ws_files w) (fun _ => None))). destruct (history repaired l (Workspace (ws_files w) (fun _ => None))) as [cs w2].
      apply IH. intros k r X. discriminate X. }
  intros l f. apply H. intros k r X. discriminate X.
Qed.

(** ** A repair that makes it worse *)

(** With [cargo:rerun-if-changed=build.rs] a build goes by the value at the last earlier build of its
    kind since whose beginning [build.rs] did not change: edits of other files no longer help. *)
Fixpoint goes_by_script (l : list action) (f : files) (m : counted) : list (option string) :=
  match l with
  | [] => []
  | Edit g :: r => goes_by_script r g m
  | Clean :: r => goes_by_script r f (fun _ => None)
  | Build k e :: r =>
      let new := e variable :: goes_by_script r f (fun k' => if String.eqb k' k then Some (f, e variable) else m k') in
      match m k with
      | Some (g, v) => if same_version (version "build.rs" g) (version "build.rs" f) then v :: goes_by_script r f m else new
      | None => new
      end
  end.

Definition matches_half (runs : string -> option script_run) (m : counted) : Prop :=
  forall k, match runs k, m k with
    | Some r, Some (f, v) => sr_files r = f /\ sr_out r = stdout_of (half_repaired v) /\ line_break_free v
    | None, None => True
    | _, _ => False
    end.

Lemma half_repaired_cfgs v : cargo_cfgs (stdout_of (half_repaired v)) = active_cfgs v.
Proof. reflexivity. Qed.

Lemma fresh_half r f e v : sr_out r = stdout_of (half_repaired v) -> line_break_free v ->
  fresh r f e = same_version (version "build.rs" (sr_files r)) (version "build.rs" f).
Proof.
  intros H L. unfold fresh. rewrite H. destruct (no_deps v L) as [He Hf].
  change (env_deps (stdout_of (half_repaired v))) with (env_deps (stdout_of (build_rs v))).
  change (file_deps (stdout_of (half_repaired v))) with ("build.rs"%string :: file_deps (stdout_of (build_rs v))).
  rewrite He, Hf. cbn [forallb andb]. apply andb_true_r.
Qed.

Theorem C48_half : forall l f runs m, matches_half runs m -> plain_values l ->
  fst (history half_repaired l (Workspace f runs)) = map active_cfgs (goes_by_script l f m).
Proof.
  induction l as [|a l IH]; intros f runs m M P; [reflexivity|].
  assert (P' : plain_values l) by (intros k e H; apply (P k e); right; exact H).
  destruct a as [k e|g|]; cbn [history act goes_by_script].
  - assert (L : line_break_free (e variable)) by (apply (P k e); left; reflexivity).
    cbn [ws_files ws_runs].
    assert (New : forall r, r = ScriptRun f e (stdout_of (half_repaired (e variable))) ->
      matches_half (remember k r runs) (fun k' => if String.eqb k' k then Some (f, e variable) else m k')).
    { intros r -> k'. unfold remember. destruct (String.eqb k' k); [cbn; auto|apply M]. }
    pose proof (M k) as Mk. destruct (runs k) as [r|], (m k) as [[g v]|]; try contradiction.
    + destruct Mk as (F1 & F2 & F3). rewrite (fresh_half r f e v F2 F3), F1.
      destruct (same_version (version "build.rs" g) (version "build.rs" f)).
      * specialize (IH f runs m M P'). destruct (history half_repaired l (Workspace f runs)) as [cs w2]. cbn [fst] in *.
        rewrite IH. cbn [map]. rewrite F2, half_repaired_cfgs. reflexivity.
      * specialize (IH f _ _ (New _ eq_refl) P').
        destruct (history half_repaired l (Workspace f (remember k (ScriptRun f e (stdout_of (half_repaired (e variable)))) runs))) as [cs w2].
        cbn [fst] in *. rewrite IH. reflexivity.
    + specialize (IH f _ _ (New _ eq_refl) P').
      destruct (history half_repaired l (Workspace f (remember k (ScriptRun f e (stdout_of (half_repaired (e variable)))) runs))) as [cs w2].
      cbn [fst] in *. rewrite IH. reflexivity.
  - specialize (IH g runs m M P'). cbn [ws_runs]. destruct (history half_repaired l (Workspace g runs)) as [cs w2]. exact IH.
  - cbn [ws_files]. assert (M0 : matches_half (fun _ => None) (fun _ => None)) by (intros k; exact Logic.I).
    specialize (IH f _ _ M0 P'). destruct (history half_repaired l (Workspace f (fun _ => None))) as [cs w2]. exact IH.
Qed.

(** ** The makefile's ten test runs *)

(** Task [test-all] after an ordinary build of the same kind: all runs test the setting of that build. *)
Theorem C48_test_all : forall k e0 e f runs, runs k = None -> line_break_free (e0 variable) ->
  fst (history build_rs (Build k e0 :: test_all k e makefile_settings) (Workspace f runs))
    = map (fun _ => active_cfgs (e0 variable)) (None :: map Some makefile_settings).
Proof.
  intros k e0 e f runs Hr L. unfold test_all. rewrite <- (map_map (set_var e) (Build k)).
  change (Build k e0 :: map (Build k) (map (set_var e) makefile_settings)) with (map (Build k) (e0 :: map (set_var e) makefile_settings)).
  rewrite (C48_stale k e0 _ f runs Hr L). cbn [map]. rewrite !map_map. reflexivity.
Qed.

(** Task [miri-all], or [test-all] from a clean state: all runs test 48 bits. *)
Theorem C48_miri_all : forall k e w,
  map setting (fst (history build_rs (miri_all k e makefile_settings) w)) = map (fun _ => Some cfg48) makefile_settings.
Proof.
  intros k e w. unfold miri_all, test_all. cbn [history act]. rewrite <- (map_map (set_var e) (Build k)).
  destruct (history build_rs (map (Build k) (map (set_var e) makefile_settings)) (Workspace (ws_files w) (fun _ => None))) as [cs w2] eqn:R.
  cbn [fst]. apply (f_equal fst) in R. cbn [fst] in R. rewrite <- R.
  change makefile_settings with ("48bits"%string :: tl makefile_settings) at 1. cbn [map].
  change (Build k (set_var e "48bits") :: map (Build k) (map (set_var e) (tl makefile_settings)))
    with (map (Build k) (set_var e "48bits"%string :: map (set_var e) (tl makefile_settings))).
  rewrite C48_stale; [|reflexivity|vm_compute; intuition discriminate]. vm_compute. reflexivity.
Qed.

(** So whether the runs of [test-all] pass depends on that earlier build alone, not on the settings
    they are reported for; and none of [miri-all] passes. *)
Theorem C48_reports : forall k e0 e f runs c0 cfgs, runs k = None -> line_break_free (e0 variable) ->
  selected (e0 variable) = Some c0 ->
  In cfgs (fst (history build_rs (Build k e0 :: test_all k e makefile_settings) (Workspace f runs))) ->
  forall E D P I1 I2 I3 F1 F2 F3 s, setting cfgs = Some (cfg (tgt E)) -> debug_assertions (tgt E) = true ->
  surroundings E D P I1 I2 I3 F1 F2 F3 s ->
  (suite_compiles (cfg (tgt E)) /\ suite_passes E D P I1 I2 I3 s <-> 56 <= pointer_width c0 <= 60).
Proof.
  intros k e0 e f runs c0 cfgs Hr L Hs Hin E D P I1 I2 I3 F1 F2 F3 s Hc Hd Hsu.
  rewrite (C48_test_all k e0 e f runs Hr L) in Hin. apply in_map_iff in Hin. destruct Hin as (x & <- & _).
  assert (X : cfg (tgt E) = c0) by (unfold selected in Hs; unfold setting in Hc; congruence).
  rewrite (C47_suite _ _ _ _ _ _ _ _ _ _ Hsu), Hd, X. reflexivity.
Qed.

Theorem C48_miri_reports : forall k e w cfgs,
  In cfgs (fst (history build_rs (miri_all k e makefile_settings) w)) ->
  forall E D P I1 I2 I3 s, setting cfgs = Some (cfg (tgt E)) ->
  ~ (suite_compiles (cfg (tgt E)) /\ suite_passes E D P I1 I2 I3 s).
Proof.
  intros k e w cfgs Hin E D P I1 I2 I3 s Hc [H _]. apply (in_map setting) in Hin. rewrite C48_miri_all in Hin.
  apply in_map_iff in Hin. destruct Hin as (x & X & _). assert (Y : cfg (tgt E) = cfg48) by congruence. rewrite Y in H.
  apply C47_compiles in H; [|cbn; tauto]. cbn in H. lia.
Qed.

(** ** Examples *)

Definition unset : environment := fun _ => None.
Definition tree : files := [("build.rs", 1); ("src/lib.rs", 7)]%string.

(** A default build, then [test-all]: eleven builds at 60 bits, and the tests pass each time. *)
Example C48_example :
  map setting (fst (history build_rs (Build "debug" unset :: test_all "debug" unset makefile_settings) (Workspace tree (fun _ => None))))
    = repeat (Some cfg60) 11 /\
  selected (unset variable) = Some cfg60 /\ debug_assertions (tgt (bump_env dbg60)) = true /\
  surroundings (bump_env dbg60) plain_std stack_slots (pure_impls cloning) (pure_impls item_meaning) (pure_impls item_meaning)
    (fun _ => cloning) (fun _ => item_meaning) (fun _ => item_meaning) stack.
Proof. split; [vm_compute; reflexivity|]. split; [vm_compute; reflexivity|]. split; [reflexivity|]. apply C47_surroundings; [cbn; tauto|reflexivity]. Qed.

(** Touching a file lets the value through; the other profile has its own first build. *)
Example C48_example_touch :
  let e w := set_var unset w in
  let l := [Build "debug" (e "50bits"); Build "debug" (e "57bits"); Edit [("build.rs", 2)]; Build "debug" (e "57bits");
            Build "release" (e "63bits"); Build "debug" unset]%string in
  plain_values l /\ matches (fun _ => None) (fun _ => None) /\
  goes_by l tree (fun _ => None) = [Some "50bits"; Some "50bits"; Some "57bits"; Some "63bits"; Some "57bits"]%string /\
  map (option_map pointer_width) (map setting (fst (history build_rs l (Workspace tree (fun _ => None)))))
    = [Some 50; Some 50; Some 57; Some 63; Some 57].
Proof.
  split; [|split; [intros k; exact Logic.I|split; vm_compute; reflexivity]].
  intros k e H. cbn in H. repeat destruct H as [H|H]; inversion H; cbn; intuition discriminate.
Qed.

Example C48_example_repaired :
  map (option_map pointer_width) (map setting (fst (history repaired (test_all "debug" unset makefile_settings) (Workspace tree (fun _ => None)))))
    = map Some [48; 49; 50; 51; 52; 53; 54; 55; 56; 57].
Proof. vm_compute. reflexivity. Qed.

(** An edit of [src/lib.rs] lets the value through with the script as it is, but not with the half
    repair; an edit of [build.rs] does with both. *)
Example C48_example_half :
  let e w := set_var unset w in
  let l := [Build "debug" (e "50bits"); Edit [("build.rs", 1); ("src/lib.rs", 8)]; Build "debug" (e "57bits");
            Edit [("build.rs", 2); ("src/lib.rs", 8)]; Build "debug" (e "63bits")]%string in
  plain_values l /\ matches_half (fun _ => None) (fun _ => None) /\
  goes_by l tree (fun _ => None) = [Some "50bits"; Some "57bits"; Some "63bits"]%string /\
  goes_by_script l tree (fun _ => None) = [Some "50bits"; Some "50bits"; Some "63bits"]%string /\
  map (option_map pointer_width) (map setting (fst (history half_repaired l (Workspace tree (fun _ => None)))))
    = [Some 50; Some 50; Some 63].
Proof.
  split; [|split; [intros k; exact Logic.I|split; [|split]; vm_compute; reflexivity]].
  intros k e H. cbn in H. repeat destruct H as [H|H]; inversion H; cbn; intuition discriminate.
Qed.

(** ** Instances: each theorem applied to a concrete case that meets its hypotheses *)

Definition edits : list action :=
  [Build "debug" (set_var unset "50bits"); Build "debug" (set_var unset "57bits"); Edit [("build.rs", 2)]; Build "debug" (set_var unset "57bits");
   Build "release" (set_var unset "63bits"); Build "debug" unset]%string.

Example C48_exact_example :
  fst (history build_rs edits (Workspace tree (fun _ => None)))
    = map active_cfgs [Some "50bits"; Some "50bits"; Some "57bits"; Some "63bits"; Some "57bits"]%string.
Proof. destruct C48_example_touch as (P & M & G & _). rewrite <- G. exact (C48_exact _ tree _ _ M P). Qed.

Example C48_stale_example :
  fst (history build_rs (map (Build "debug") (map (set_var unset) ["50bits"; "57bits"; "63bits"]))%string (Workspace tree (fun _ => None)))
    = repeat (active_cfgs (Some "50bits"%string)) 3.
Proof.
  refine (C48_stale "debug" (set_var unset "50bits") (map (set_var unset) ["57bits"; "63bits"]%string) tree (fun _ => None) eq_refl _).
  cbn. intuition discriminate.
Qed.

(** After [cargo clean]; after an edit, the run remembered being that of a build with "50bits". *)
Example C48_clean_example :
  let w := snd (history build_rs [Build "debug" (set_var unset "50bits")]%string (Workspace tree (fun _ => None))) in
  fst (history build_rs [Clean; Build "debug" (set_var unset "57bits")]%string w) = [active_cfgs (Some "57bits"%string)] /\
  fst (history build_rs [Edit [("build.rs", 2)]; Build "debug" (set_var unset "57bits")]%string w) = [active_cfgs (Some "57bits"%string)].
Proof.
  intros w. destruct (C48_clean "debug" (set_var unset "57bits") w [("build.rs", 2)]%string) as [A B]. split; [exact A|].
  apply (B (ScriptRun tree (set_var unset "50bits") (stdout_of (build_rs (Some "50bits"%string)))) (Some "50bits"%string));
    [vm_compute; reflexivity|reflexivity|cbn; intuition discriminate|reflexivity].
Qed.

Example C48_repaired_example :
  fst (history repaired edits (Workspace tree (fun _ => None)))
    = map active_cfgs [Some "50bits"; Some "57bits"; Some "57bits"; Some "63bits"; None]%string.
Proof. apply (C48_repaired edits tree). Qed.

Example C48_half_example :
  fst (history half_repaired edits (Workspace tree (fun _ => None)))
    = map active_cfgs [Some "50bits"; Some "50bits"; Some "57bits"; Some "63bits"; Some "57bits"]%string.
Proof.
  destruct C48_example_touch as (P & _). rewrite (C48_half edits tree (fun _ => None) (fun _ => None) (fun _ => Logic.I) P).
  vm_compute. reflexivity.
Qed.

Example C48_test_all_example :
  fst (history build_rs (Build "debug" unset :: test_all "debug" unset makefile_settings) (Workspace tree (fun _ => None)))
    = repeat (active_cfgs None) 11.
Proof. apply (C48_test_all "debug" unset unset tree (fun _ => None) eq_refl). cbn. intuition discriminate. Qed.

Example C48_miri_all_example :
  map setting (fst (history build_rs (miri_all "miri" unset makefile_settings) (Workspace tree (fun _ => None)))) = repeat (Some cfg48) 10.
Proof. apply (C48_miri_all "miri"). Qed.

(** The run reported for 48 bits, after a default build, tests 60 bits and passes. *)
Example C48_reports_example :
  suite_compiles cfg60 /\
  suite_passes (bump_env dbg60) plain_std stack_slots (pure_impls cloning) (pure_impls item_meaning) (pure_impls item_meaning) stack.
Proof.
  destruct C48_example as (_ & S & D & U).
  refine (proj2 (C48_reports "debug" unset unset tree (fun _ => None) cfg60 (active_cfgs None) eq_refl _ S _ (bump_env dbg60) _ _ _ _ _ _ _ _ _ eq_refl D U) _).
  - cbn. intuition discriminate.
  - rewrite C48_test_all_example. right. left. reflexivity.
  - vm_compute. split; discriminate.
Qed.

(** The run of [miri-all] reported for 57 bits tests 48 bits and fails. *)
Example C48_miri_reports_example :
  ~ (suite_compiles cfg48 /\
     suite_passes (bump_env rel48) plain_std stack_slots (pure_impls cloning) (pure_impls item_meaning) (pure_impls item_meaning) stack).
Proof.
  apply (C48_miri_reports "miri" unset (Workspace tree (fun _ => None)) (active_cfgs (Some "48bits"%string)) ltac:(vm_compute; tauto) (bump_env rel48)).
  reflexivity.
Qed.

Print Assumptions C48_exact.
Print Assumptions C48_stale.
Print Assumptions C48_refuted.
Print Assumptions C48_clean.
Print Assumptions C48_repaired.
Print Assumptions C48_test_all.
Print Assumptions C48_miri_all.
Print Assumptions C48_reports.
Print Assumptions C48_miri_reports.
Print Assumptions C48_half.
