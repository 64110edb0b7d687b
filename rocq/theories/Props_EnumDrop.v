(** Property C43: enums with a [Drop] impl of their own. *)
From Coq Require Import Arith NArith String Bool List Lia.
From Verif Require Import Words Config Spec SpecMem ConfigFacts Pointer PointerFacts Mem MemFacts Box BoxFacts Bump
  Arms Macro SpecMacro MacroFacts Props_Pointer Props_Box Props_Macro Props_Clone.
Import ListNotations.
Local Open Scope N_scope.

Definition own_entry (def : edef) (v : evalue) : string * leafval := (e_name def, concat (ev_fields v)).

Lemma copy_fields_silent def v k vs : def_ok def -> e_drop def = true -> In (v, k) (e_variants def) ->
  drop_events (kind_types k) vs = [].
Proof.
  intros Hd Hdr Hin. apply drop_events_none. pose proof (do_copy _ Hd (or_intror Hdr)) as C. pose proof (do_glue _ Hd) as G.
  rewrite Forall_forall in *. intros t Ht.
  assert (In t (all_types def)).
  { unfold all_types. apply in_concat. exists (kind_types k). split; [|exact Ht]. apply in_map_iff. exists (v, k). auto. }
  auto.
Qed.

(** Storing a value runs its destructor, exactly once, and the value is nevertheless in the box. *)
Theorem C43_destroyed_on_storing E def x v s w s1 : macro_setup E def x -> e_drop def = true -> evalue_fits E def v ->
  container_from E x v s = Ok w s1 ->
  destroyed (events s1) = destroyed (events s) ++ [own_entry def v] /\
  forall s2, keeps s1 s2 -> macro_into_inner E x w s2 = Ok v s2.
Proof.
  intros Hs Hdr Hv R. pose proof Hv as [(k & Hin & Ht) Hfit].
  split.
  - pose proof (copy_fields_silent def _ k (ev_fields v) (ms_def _ _ _ Hs) Hdr Hin) as Si.
    destruct (macro_into_spec E def x (ms_def _ _ _ Hs) (ms_expand _ _ _ Hs) (setup_u8 _ _ _ Hs) (ms_env _ _ _ Hs)
                v k s Hin Ht Hfit) as [(_ & w' & R' & _) | [(U & _ & _ & _ & R') | (U & p & w' & _ & _ & _ & R' & _)]];
      unfold container_from in R; rewrite R in R'; try discriminate; injection R' as <- ->; cbn [logged events stored];
      rewrite !destroyed_app; unfold exit_log; rewrite Hdr; [rewrite Si; reflexivity|].
    cbn. rewrite app_nil_r. reflexivity.
  - destruct (C26_round_trip E def x v s Hs Hv) as [(w' & s1' & R' & _ & H) | (k' & U & s1' & H)].
    + rewrite R in R'. injection R' as <- <-. exact H.
    + destruct H as (_ & _ & _ & _ & H). congruence.
Qed.

(** So a value put in a container and taken out again is destroyed twice. *)
Theorem C43_destroyed_twice E def x v s w s1 : macro_setup E def x -> e_drop def = true -> evalue_fits E def v ->
  container_from E x v s = Ok w s1 ->
  exists s2, bind (macro_into_inner E x w) (drop_evalue x) s1 = Ok tt s2 /\
    destroyed (events s2) = destroyed (events s) ++ [own_entry def v; own_entry def v].
Proof.
  intros Hs Hdr Hv R. destruct (C43_destroyed_on_storing E def x v s w s1 Hs Hdr Hv R) as [D I].
  unfold bind. rewrite (I s1) by (intros b Hb; auto). eexists. split; [reflexivity|]. cbn [events].
  destruct Hv as [(k & Hin & Ht) _]. pose proof (expand_inv _ _ (ms_expand _ _ _ Hs)) as X.
  unfold enum_drop. rewrite (xp_enum _ _ X), (assoc_in _ _ _ (do_names _ (ms_def _ _ _ Hs)) Hin).
  rewrite (xp_drop _ _ X), Hdr, (xp_name _ _ X). rewrite (copy_fields_silent def _ k _ (ms_def _ _ _ Hs) Hdr Hin).
  rewrite !destroyed_app, D, <- app_assoc. reflexivity.
Qed.

(** Cloning a box runs the destructor of the value cloned from once more if that is a unit variant
    (C29) and always that of the clone. *)
Theorem C43_clone E def x v s w s1 s2 clone c w' s4 s3 : macro_setup E def x -> e_drop def = true -> evalue_fits E def v ->
  container_from E x v s = Ok w s1 -> keeps s1 s2 -> clone v s2 = Ok c s3 -> evalue_fits E def c ->
  tb_clone (macro_taggable E x) clone w s2 = Ok w' s4 ->
  (~ In (ev_variant v, KUnit) (e_variants def) -> destroyed (events s4) = destroyed (events s3) ++ [own_entry def c]) /\
  (In (ev_variant v, KUnit) (e_variants def) -> destroyed (events s4) = destroyed (events s3) ++ [own_entry def v; own_entry def c]).
Proof.
  intros Hs Hdr Hv R K C Hc RC. unfold tb_clone, bind at 1 in RC. cbn [ref_from_tagged_box macro_taggable into_tagged_box] in RC.
  split; intros Hu.
  - rewrite (C29_observes E def x v s w s1) in RC by (first [assumption|right; assumption]). unfold bind in RC. rewrite C in RC. cbn [ret] in RC.
    apply (C43_destroyed_on_storing E def x c s3 w' s4 Hs Hdr Hc RC).
  - assert (Hf : ev_fields v = []).
    { destruct Hv as [(k & Hk & Hf) _]. pose proof (do_names _ (ms_def _ _ _ Hs)) as N. pose proof (assoc_in _ _ _ N Hk) as A1. rewrite (assoc_in _ _ _ N Hu) in A1.
      injection A1 as <-. inversion Hf. reflexivity. }
    rewrite (C29_unit_drop E def x v s w s1) in RC by (first [assumption|apply Hv]). unfold bind in RC. rewrite C in RC. cbn [ret] in RC.
    destruct (C43_destroyed_on_storing E def x c _ w' s4 Hs Hdr Hc RC) as [D _]. rewrite D. unfold log. cbn [events].
    rewrite destroyed_app, <- app_assoc. unfold own_entry. rewrite Hf. reflexivity.
Qed.

(** Without a [Drop] impl of the enum and without zero-sized droppable payload nothing is destroyed. *)
Theorem C43_only_then E def x v k s w s1 : macro_setup E def x -> no_zst_drop def k ->
  In (ev_variant v, k) (e_variants def) -> Forall2 has_type (kind_types k) (ev_fields v) ->
  tag_fits E def (ev_variant v) ->
  container_from E x v s = Ok w s1 -> destroyed (events s1) = destroyed (events s).
Proof.
  intros Hs Hz Hin Ht Hfit R. destruct (container_from_fresh E def x v k s Hs Hin Ht Hfit) as [(w' & s3 & F1 & _ & _ & _ & F) | (U & s3 & _ & _ & _ & F & _)];
    [|congruence]. rewrite R in F1. injection F1 as <- <-. apply F, Hz.
Qed.

(** [dropping]: an enum [Token] with a [Drop] impl. *)
Example C43_example : macro_setup (bump_env dbg60) dropping dropping_x /\ e_drop dropping = true /\
  evalue_fits (bump_env dbg60) dropping (EV "Busy" [[Byte 7]]) /\
  destroyed (log_of (bind (container_from (bump_env dbg60) dropping_x (EV "Busy" [[Byte 7]])) (fun w =>
    bind (macro_into_inner (bump_env dbg60) dropping_x w) (drop_evalue dropping_x)) st0)) =
    [("Token", [Byte 7]); ("Token", [Byte 7])]%string.
Proof.
  split; [apply dropping_setup|]. split; [reflexivity|]. split.
  - split; [exists (KTuple [ty_u8]); split; [cbn; tauto|repeat constructor]|].
    exists 1%nat, (KTuple [ty_u8]). split; [reflexivity|discriminate].
  - vm_compute. reflexivity.
Qed.

(** ** Instances: each theorem applied to a concrete case that meets its hypotheses *)

Lemma a_busy_box : exists w s, container_from (bump_env dbg60) dropping_x (EV "Busy" [[Byte 7]]) st0 = Ok w s.
Proof.
  destruct (container_from (bump_env dbg60) dropping_x (EV "Busy" [[Byte 7]]) st0) as [w s|p s|u] eqn:R; [eauto|..];
    apply (f_equal result) in R; vm_compute in R; discriminate R.
Qed.

Example C43_destroyed_on_storing_example : exists w s, container_from (bump_env dbg60) dropping_x (EV "Busy" [[Byte 7]]) st0 = Ok w s /\
  destroyed (events s) = [("Token"%string, [Byte 7])] /\
  macro_into_inner (bump_env dbg60) dropping_x w s = Ok (EV "Busy" [[Byte 7]]) s.
Proof.
  destruct a_busy_box as (w & s & H), C43_example as (S & D & F & _). exists w, s. split; [exact H|].
  destruct (C43_destroyed_on_storing _ _ _ _ _ _ _ S D F H) as [A B]. split; [exact A|apply B, keeps_refl].
Qed.

Example C43_destroyed_twice_example : exists w s s2, container_from (bump_env dbg60) dropping_x (EV "Busy" [[Byte 7]]) st0 = Ok w s /\
  bind (macro_into_inner (bump_env dbg60) dropping_x w) (drop_evalue dropping_x) s = Ok tt s2 /\
  destroyed (events s2) = [("Token"%string, [Byte 7]); ("Token"%string, [Byte 7])].
Proof.
  destruct a_busy_box as (w & s & H), C43_example as (S & D & F & _).
  destruct (C43_destroyed_twice _ _ _ _ _ _ _ S D F H) as (s2 & A). exists w, s, s2. auto.
Qed.

Example C43_clone_example : exists w s w' s4, container_from (bump_env dbg60) dropping_x (EV "Busy" [[Byte 7]]) st0 = Ok w s /\
  tb_clone (macro_taggable (bump_env dbg60) dropping_x) (fun v => ret v) w s = Ok w' s4 /\
  destroyed (events s4) = [("Token"%string, [Byte 7]); ("Token"%string, [Byte 7])].
Proof.
  destruct C43_destroyed_on_storing_example as (w & s & H & D1 & _), C43_example as (S & D & F & _).
  assert (R : result (bind (container_from (bump_env dbg60) dropping_x (EV "Busy" [[Byte 7]]))
    (tb_clone (macro_taggable (bump_env dbg60) dropping_x) (fun v => ret v)) st0) <> None) by (vm_compute; discriminate).
  unfold bind at 1 in R. rewrite H in R.
  destruct (tb_clone (macro_taggable (bump_env dbg60) dropping_x) (fun v => ret v) w s) as [w' s4|p s4|u] eqn:C;
    [|elim R; reflexivity..].
  exists w, s, w', s4. split; [exact H|]. split; [exact C|].
  assert (N : ~ In (ev_variant (EV "Busy" [[Byte 7]]), KUnit) (e_variants dropping)) by (intros [I|[I|[]]]; discriminate I).
  pose proof (C43_clone _ _ _ (EV "Busy" [[Byte 7]]) st0 w s s (fun v => ret v) (EV "Busy" [[Byte 7]]) w' s4 s S D F H (keeps_refl s) eq_refl F C) as [Q _]. specialize (Q N).
  rewrite Q, D1. reflexivity.
Qed.

(** The unit variant: stored, looked at, and its clone stored. *)
Example C43_clone_unit_example : In ("Idle"%string, KUnit) (e_variants dropping) /\
  destroyed (log_of (bind (container_from (bump_env dbg60) dropping_x (EV "Idle" []))
    (tb_clone (macro_taggable (bump_env dbg60) dropping_x) (fun v => ret v)) st0)) = [("Token"%string, []); ("Token"%string, []); ("Token"%string, [])].
Proof. split; [cbn; tauto|vm_compute; reflexivity]. Qed.

Example C43_only_then_example : exists w s, container_from (bump_env dbg60) item_x v_text st0 = Ok w s /\ destroyed (events s) = [].
Proof.
  destruct two_boxes as (w & s & _ & _ & H & _). exists w, s. split; [exact H|].
  apply (C43_only_then _ _ _ v_text (KTuple [ty_string]) st0 w s item_setup); [split; [reflexivity|]|cbn; tauto|..|apply text_fits|exact H].
  - cbn. discriminate.
  - apply a_copy_ok.
Qed.
