(** Property C23: cloning a box. *)
From Coq Require Import Arith NArith String Bool List Lia.
From Verif Require Import Words Config Spec SpecMem ConfigFacts Pointer PointerFacts Mem MemFacts Box BoxFacts Bump
  Arms Macro SpecMacro MacroFacts Props_Pointer Props_Box Props_Macro.
Import ListNotations.
Local Open Scope N_scope.

(** A value whose storing destroys nothing: no [Drop] impl on the enum, and no zero-sized payload with
    a destructor (see C21 for those). *)
Definition no_zst_drop (def : edef) (k : vkind) : Prop :=
  e_drop def = false /\
  match storage k with Some U => h_size U = 0 -> Forall (fun t => ty_drop t = false) (kind_types k) | None => True end.

Lemma drop_events_none tys vs : Forall (fun t => ty_drop t = false) tys -> drop_events tys vs = [].
Proof.
  intros H. revert vs. induction H as [|t tys Ht _ IH]; intros [|v vs]; cbn [drop_events]; try reflexivity.
  rewrite Ht, IH. reflexivity.
Qed.

Lemma boxed_same_tag E def s s' w w' v v' : def_ok def -> boxed E def s w v -> boxed E def s' w' v' ->
  ev_variant v = ev_variant v' -> tb_discriminant E w = tb_discriminant E w'.
Proof.
  intros Hd (i & k & Hi & -> & _) (j & k' & Hj & -> & _) Ev. f_equal.
  apply (proj1 (NoDup_nth_error (map fst (e_variants def))) (do_names _ Hd)).
  - rewrite map_length. apply nth_error_Some. congruence.
  - rewrite !nth_error_map, Hi, Hj. cbn. congruence.
Qed.

(** Where the clone lives: a block of its own (or nowhere). *)
Definition own_block (E : env) (s s' : st) (k : vkind) (w : tagged_ptr) : Prop :=
  match storage k with
  | Some U =>
      if h_size U =? 0 then blocks s' = blocks s
      else blocks s' = Block (tb_as_ptr E w) (h_size U) (h_align U) :: blocks s /\
           forall b, In b (blocks s) ->
             tb_as_ptr E w + h_size U <= b_base b \/ b_base b + b_size b <= tb_as_ptr E w
  | None => blocks s' = blocks s
  end.

(** Everything about storing a value, in terms of the above. *)
Lemma container_from_fresh E def x c k s : macro_setup E def x ->
  In (ev_variant c, k) (e_variants def) -> Forall2 has_type (kind_types k) (ev_fields c) -> tag_fits E def (ev_variant c) ->
  (exists w s3, container_from E x c s = Ok w s3 /\ keeps s s3 /\ boxed E def s3 w c /\ own_block E s s3 k w /\
     (no_zst_drop def k -> destroyed (events s3) = destroyed (events s))) \/
  (exists U s3, storage k = Some U /\ h_size U <> 0 /\ alloc_fn E s (h_size U) (h_align U) = None /\
     container_from E x c s = Panicked PanicNullAlloc s3 /\ keeps s s3 /\ blocks s3 = blocks s /\
     (e_drop def = false -> destroyed (events s3) = destroyed (events s) ++ destructors U (ev_fields c))).
Proof.
  intros Hs Hin Ht Hfit. pose proof (ms_env _ _ _ Hs) as He. pose proof (ms_def _ _ _ Hs) as Hd.
  unfold own_block, no_zst_drop.
  destruct (macro_into_spec E def x Hd (ms_expand _ _ _ Hs) (setup_u8 _ _ _ Hs) He c k s Hin Ht Hfit)
    as [(Hz & w & R & B) | [(U & A1 & A2 & A3 & R) | (U & p & w & A1 & A2 & A3 & R & Hp & B)]].
  - left. exists w. eexists. split; [exact R|]. split; [apply keeps_logged|]. split; [exact B|]. split.
    + destruct (storage k) as [U|]; [|reflexivity]. rewrite (proj2 (N.eqb_eq _ _) Hz). reflexivity.
    + intros [D Z]. cbn [logged events]. rewrite destroyed_app. unfold exit_log. rewrite D, app_nil_r.
      destruct (storage k) as [U|] eqn:Es.
      * rewrite drop_events_none by auto. apply app_nil_r.
      * rewrite (storage_none k Es). apply app_nil_r.
  - right. exists U. eexists. split; [exact A1|]. split; [exact A2|]. split; [exact A3|]. split; [exact R|].
    split; [apply keeps_logged|]. split; [reflexivity|]. intros D. cbn [logged events]. rewrite !destroyed_app.
    unfold exit_log. rewrite D. cbn [destroyed]. rewrite app_nil_r. f_equal.
    destruct (storage_legal k U (kind_types_wf _ _ _ Hd Hin) A1) as [_ Hty]. rewrite <- Hty. apply destroyed_drop.
  - destruct (storage_legal k U (kind_types_wf _ _ _ Hd Hin) A1) as [Hl Hty]. rewrite A1.
    left. exists w. eexists. split; [exact R|]. split; [|split; [exact B|split]].
    + eapply keeps_trans; [|apply keeps_logged]. eapply (stored_keeps E (eo_alloc _ He)); auto.
      unfold hval_ok. rewrite Hty. exact Ht.
    + rewrite (proj2 (N.eqb_neq _ _) A2), Hp. split; [reflexivity|].
      destruct (eo_alloc _ He s (h_size U) (h_align U) p) as (_ & _ & _ & Dis); [lia|apply ll_align, Hl|exact A3|exact Dis].
    + intros [D _]. cbn [logged events stored]. rewrite !destroyed_app. unfold exit_log. rewrite D. cbn. rewrite !app_nil_r.
      reflexivity.
Qed.

(** Cloning: view the value, run the user's [clone] on it, store the result. *)
Theorem C23_clone E def x v s0 w s1 s clone c k s2 : macro_setup E def x -> evalue_fits E def v -> no_own_drop def v ->
  container_from E x v s0 = Ok w s1 -> keeps s1 s ->
  clone v s = Ok c s2 -> keeps s s2 ->
  In (ev_variant c, k) (e_variants def) -> Forall2 has_type (kind_types k) (ev_fields c) -> tag_fits E def (ev_variant c) ->
  (exists w' s3, tb_clone (macro_taggable E x) clone w s = Ok w' s3 /\ keeps s2 s3 /\
     macro_into_inner E x w' s3 = Ok c s3 /\ macro_into_inner E x w s3 = Ok v s3 /\
     (ev_variant c = ev_variant v -> tb_discriminant E w' = tb_discriminant E w) /\
     own_block E s2 s3 k w' /\
     (no_zst_drop def k -> destroyed (events s3) = destroyed (events s2))) \/
  (exists U s3, storage k = Some U /\ h_size U <> 0 /\ alloc_fn E s2 (h_size U) (h_align U) = None /\
     tb_clone (macro_taggable E x) clone w s = Panicked PanicNullAlloc s3 /\ keeps s2 s3 /\ blocks s3 = blocks s2 /\
     macro_into_inner E x w s3 = Ok v s3 /\
     (e_drop def = false -> destroyed (events s3) = destroyed (events s2) ++ destructors U (ev_fields c))).
Proof.
  intros Hs Hv Q R K C K2 Hin Ht Hfit.
  assert (R' : tb_clone (macro_taggable E x) clone w s = container_from E x c s2).
  { unfold tb_clone, bind at 1. cbn [ref_from_tagged_box macro_taggable into_tagged_box].
    rewrite (C29_observes E def x v s0 w s1) by assumption. unfold bind. rewrite C. reflexivity. }
  assert (Inner : forall s3, keeps s2 s3 -> macro_into_inner E x w s3 = Ok v s3).
  { intros s3 K3. destruct (C26_round_trip E def x v s0 Hs Hv) as [(w' & s1' & R'' & _ & H) | (k' & U & s1' & H)].
    - rewrite R in R''. injection R'' as <- <-. apply H. eauto using keeps_trans.
    - destruct H as (_ & _ & _ & _ & H). congruence. }
  rewrite R'.
  destruct (container_from_fresh E def x c k s2 Hs Hin Ht Hfit) as [(w' & s3 & F1 & F2 & F3 & F4 & F5) | (U & s3 & F)].
  - left. exists w', s3. split; [exact F1|]. split; [exact F2|]. split.
    { apply (boxed_into_inner E def x (ms_def _ _ _ Hs) (ms_expand _ _ _ Hs) (setup_u8 _ _ _ Hs)), F3. }
    split; [apply Inner, F2|]. split; [|split; assumption].
    intros Ev. destruct (container_from_cases E def x v s0 Hs Hv) as [(w1 & s1' & R1 & B & _) | (k' & U & s1' & H)].
    + rewrite R in R1. injection R1 as <- <-. eapply boxed_same_tag; [apply Hs|exact F3|exact B|exact Ev].
    + destruct H as (_ & _ & _ & _ & H & _). congruence.
  - right. exists U, s3. destruct F as (F1 & F2 & F3 & F4 & F5 & F6 & F7).
    repeat (split; [assumption|]). split; [apply Inner, F5|exact F7].
Qed.

(** A box whose memory lies in some block of [s] and one in a block of its own are apart. *)
Lemma holds_place E s U w v : box_holds E s U w v ->
  h_size U = 0 \/ exists b, In b (blocks s) /\ b_base b <= tb_as_ptr E w /\ tb_as_ptr E w + h_size U <= b_base b + b_size b.
Proof.
  intros (_ & R & _). apply read_at_inv in R as (_ & (_ & _ & A) & _). unfold accessible in A.
  apply orb_true_iff in A as [A|A]; [left; apply N.eqb_eq, A|right]. apply existsb_exists in A as (b & Hb & C).
  exists b. unfold block_contains in C. apply andb_true_iff in C as [C1 C2]. apply N.leb_le in C1, C2. auto.
Qed.

(** Later changes of either value in place are not seen through the other box. *)
Theorem C23_independent E def x v s0 w s1 s clone c kv k s2 w' s3 : macro_setup E def x -> no_own_drop def v ->
  In (ev_variant v, kv) (e_variants def) -> Forall2 has_type (kind_types kv) (ev_fields v) -> tag_fits E def (ev_variant v) ->
  container_from E x v s0 = Ok w s1 -> keeps s1 s ->
  clone v s = Ok c s2 -> keeps s s2 ->
  In (ev_variant c, k) (e_variants def) -> Forall2 has_type (kind_types k) (ev_fields c) -> tag_fits E def (ev_variant c) ->
  tb_clone (macro_taggable E x) clone w s = Ok w' s3 ->
  (forall U f, storage k = Some U -> hval_ok U (f (ev_fields c)) -> exists s4, tb_modify E U w' f s3 = Ok tt s4 /\
     macro_into_inner E x w' s4 = Ok (EV (ev_variant c) (f (ev_fields c))) s4 /\ macro_into_inner E x w s4 = Ok v s4) /\
  (forall U f, storage kv = Some U -> hval_ok U (f (ev_fields v)) -> exists s4, tb_modify E U w f s3 = Ok tt s4 /\
     macro_into_inner E x w s4 = Ok (EV (ev_variant v) (f (ev_fields v))) s4 /\ macro_into_inner E x w' s4 = Ok c s4).
Proof.
  intros Hs Q Hinv Htv Hfv R K C K2 Hin Ht Hfit RC.
  pose proof (ms_def _ _ _ Hs) as Hd. pose proof (ms_env _ _ _ Hs) as He.
  assert (Hv : evalue_fits E def v) by (split; [exists kv; auto|exact Hfv]).
  assert (R' : container_from E x c s2 = Ok w' s3).
  { rewrite <- RC. unfold tb_clone, bind at 1. cbn [ref_from_tagged_box macro_taggable into_tagged_box].
    rewrite (C29_observes E def x v s0 w s1) by assumption. unfold bind. rewrite C. reflexivity. }
  destruct (container_from_fresh E def x c k s2 Hs Hin Ht Hfit) as [(w1 & s31 & F1 & F2 & F3 & F4 & _) | (U & s31 & _ & _ & _ & F & _)];
    [|congruence]. rewrite R' in F1. injection F1 as <- <-.
  destruct (container_from_cases E def x v s0 Hs Hv) as [(w1 & s11 & R1 & B & _) | (k' & U & s11 & H)].
  2: destruct H as (_ & _ & _ & _ & H & _); congruence.
  rewrite R in R1. injection R1 as <- <-.
  assert (B2 : boxed E def s2 w v) by (eapply boxed_keeps; [exact Hd| |exact B]; eauto using keeps_trans).
  assert (B3 : boxed E def s3 w v) by (eapply boxed_keeps; [exact Hd|exact F2|exact B2]).
  assert (Kind : forall n k1 k2, In (n, k1) (e_variants def) -> In (n, k2) (e_variants def) -> k1 = k2).
  { intros n k1 k2 I1 I2. pose proof (assoc_in _ _ _ (do_names _ Hd) I1). pose proof (assoc_in _ _ _ (do_names _ Hd) I2). congruence. }
  destruct B2 as (i & k' & Hi & _ & B2). destruct B3 as (i' & k'' & Hi' & Tg & B3). destruct F3 as (j & k3 & Hj & Tg' & F3).
  assert (k' = kv) by (eapply Kind; [eapply nth_error_In, Hi|exact Hinv]).
  assert (k'' = kv) by (eapply Kind; [eapply nth_error_In, Hi'|exact Hinv]).
  assert (k3 = k) by (eapply Kind; [eapply nth_error_In, Hj|exact Hin]). subst k' k'' k3.
  (* apart *)
  assert (Ap : forall U1 U2, storage kv = Some U1 -> storage k = Some U2 -> h_size U1 <> 0 -> h_size U2 <> 0 ->
     tb_as_ptr E w + h_size U1 <= tb_as_ptr E w' \/ tb_as_ptr E w' + h_size U2 <= tb_as_ptr E w).
  { intros U1 U2 S1 S2 Z1 Z2. rewrite S1 in B2. destruct (holds_place _ _ _ _ _ B2) as [Z|(b & Hb & P1 & P2)]; [contradiction|].
    unfold own_block in F4. rewrite S2, (proj2 (N.eqb_neq _ _) Z2) in F4. destruct (proj2 F4 b Hb); lia. }
  (* an in-place change of one box, the other one elsewhere (or one of them zero-sized) *)
  assert (G : forall wa ka va ia wb kb vb ib, 
     nth_error (e_variants def) ia = Some (ev_variant va, ka) -> tb_discriminant E wa = N.of_nat ia ->
     match storage ka with Some U => box_holds E s3 U wa (ev_fields va) | None => ev_fields va = [] end ->
     nth_error (e_variants def) ib = Some (ev_variant vb, kb) -> tb_discriminant E wb = N.of_nat ib ->
     match storage kb with Some U => box_holds E s3 U wb (ev_fields vb) | None => ev_fields vb = [] end ->
     (forall U1 U2, storage ka = Some U1 -> storage kb = Some U2 -> h_size U1 <> 0 -> h_size U2 <> 0 ->
        tb_as_ptr E wa + h_size U1 <= tb_as_ptr E wb \/ tb_as_ptr E wb + h_size U2 <= tb_as_ptr E wa) ->
     forall U f, storage ka = Some U -> hval_ok U (f (ev_fields va)) -> exists s4, tb_modify E U wa f s3 = Ok tt s4 /\
       macro_into_inner E x wa s4 = Ok (EV (ev_variant va) (f (ev_fields va))) s4 /\ macro_into_inner E x wb s4 = Ok vb s4).
  { intros wa ka va ia wb kb vb ib Ha Ta Ba Hb Tb Bb Apa U f Su Hf. rewrite Su in Ba.
    destruct (storage_legal ka U (kind_types_wf _ _ _ Hd (nth_error_In _ _ Ha)) Su) as [Hl Hty].
    destruct (C17_modify E U wa (ev_fields va) f s3 He Hl Hf Ba) as (s4 & M1 & M2 & M3 & M4 & M5 & _).
    exists s4. split; [exact M1|]. split.
    - apply (boxed_into_inner E def x Hd (ms_expand _ _ _ Hs) (setup_u8 _ _ _ Hs)). exists ia, ka. cbn [ev_variant ev_fields].
      rewrite Su. auto.
    - apply (boxed_into_inner E def x Hd (ms_expand _ _ _ Hs) (setup_u8 _ _ _ Hs)). exists ib, kb.
      split; [exact Hb|]. split; [exact Tb|]. destruct (storage kb) as [U2|] eqn:S2; [|exact Bb].
      destruct (storage_legal kb U2 (kind_types_wf _ _ _ Hd (nth_error_In _ _ Hb)) S2) as [Hl2 Hty2].
      eapply (box_holds_addr E); [exact Hl2|reflexivity|]. apply box_holds_inv in Bb.
      destruct (N.eq_dec (h_size U2) 0) as [Z2|Z2].
      + pose proof (read_at_inv _ _ _ _ _ Bb) as (_ & (N1 & N2 & _) & _).
        apply zst_read; auto. eapply read_at_types, Bb.
      + destruct (N.eq_dec (h_size U) 0) as [Z1|Z1].
        * unfold tb_modify, bind in M1. change (tp_mut_ref_addr (tgt E) wa) with (tb_as_ptr E wa) in M1.
          destruct Ba as (_ & Ba & _). rewrite Ba in M1. pose proof (read_at_inv _ _ _ _ _ Ba) as (_ & Ac & _).
          rewrite write_at_eq in M1 by exact Ac. injection M1 as <-.
          pose proof (read_at_inv _ _ _ _ _ Bb) as (_ & Acb & Rb). rewrite read_at_eq by exact Acb. cbn [bytes].
          rewrite (read_fields_ext _ _ (bytes s3)), Rb; [reflexivity|]. intros g y _ _. apply write_mem_other; auto. lia.
        * apply M5; [exact Hl2|exact Bb|]. destruct (Apa U U2 Su eq_refl Z1 Z2); auto. }
  split; intros U f.
  - eapply (G w' k c j w kv v i'); eauto. intros U1 U2 S1 S2 Z1 Z2. destruct (Ap U2 U1 S2 S1 Z2 Z1); auto.
  - eapply (G w kv v i' w' k c j); eauto.
Qed.

(** Cloning the string of [v_text] (the user's [clone] copies the buffer), then changing the clone. *)
Definition a_copy : leafval := le_bytes 8 0x8000 ++ le_bytes 8 5 ++ le_bytes 8 5.
Definition clone_text : evalue -> M evalue := fun e => ret (EV (ev_variant e) [a_copy]).
Example C23_example : let E := bump_env dbg60 in
  result (bind (container_from E item_x v_text) (fun w =>
          bind (tb_clone (macro_taggable E item_x) clone_text w) (fun w' =>
          bind (tb_modify E (leaf_hty ty_string) w' (fun _ => [le_bytes 8 0x9000 ++ le_bytes 8 1 ++ le_bytes 8 1])) (fun _ =>
          bind (macro_into_inner E item_x w) (fun a =>
          bind (macro_into_inner E item_x w') (fun b => ret (a, b, tb_discriminant E w =? tb_discriminant E w')))))) st0)
  = Some (v_text, EV "Text" [le_bytes 8 0x9000 ++ le_bytes 8 1 ++ le_bytes 8 1], true).
Proof. vm_compute. reflexivity. Qed.

(** ** Instances: each theorem applied to a concrete case that meets its hypotheses *)

Lemma a_copy_ok : In ("Text"%string, KTuple [ty_string]) (e_variants item) /\ Forall2 has_type (kind_types (KTuple [ty_string])) [a_copy] /\
  Forall2 has_type (kind_types (KTuple [ty_string])) [a_string].
Proof.
  split; [cbn; tauto|]. split; (constructor; [split; vm_compute; reflexivity|constructor]).
Qed.

(** The text of [two_boxes] can be cloned next to the integer. *)
Example C23_clone_example : exists w s1 w' s3, container_from (bump_env dbg60) item_x v_text st0 = Ok w s1 /\
  tb_clone (macro_taggable (bump_env dbg60) item_x) clone_text w s1 = Ok w' s3 /\
  macro_into_inner (bump_env dbg60) item_x w' s3 = Ok (EV "Text" [a_copy]) s3 /\
  macro_into_inner (bump_env dbg60) item_x w s3 = Ok v_text s3 /\
  tb_discriminant (bump_env dbg60) w' = tb_discriminant (bump_env dbg60) w.
Proof.
  destruct two_boxes as (w & s1 & _ & _ & H & _).
  destruct a_copy_ok as (I & T & _).
  destruct (C23_clone _ _ _ _ st0 w s1 s1 clone_text (EV "Text" [a_copy]) (KTuple [ty_string]) s1 item_setup text_fits (or_introl eq_refl)
    H (keeps_refl s1) eq_refl (keeps_refl s1) I T (proj2 text_fits)) as [(w' & s3 & A & _ & B & C & D & _)|(U & s3 & S & _ & F & _)].
  - exists w, s1, w', s3. split; [exact H|]. split; [exact A|]. split; [exact B|]. split; [exact C|]. apply D. reflexivity.
  - exfalso. injection S as <-.
    assert (R : result (bind (container_from (bump_env dbg60) item_x v_text) (fun _ s => match bump s 24 8 with None => Ok false s | _ => Ok true s end) st0) = Some true)
      by (vm_compute; reflexivity).
    unfold bind in R. rewrite H in R. change (alloc_fn (bump_env dbg60)) with bump in F.
    change (bump s1 24 8 = None) in F. rewrite F in R. discriminate R.
Qed.

(** Changing the clone. *)
Example C23_independent_example : exists w w' s3 s4, tb_modify (bump_env dbg60) (leaf_hty ty_string) w' (fun _ => [a_string]) s3 = Ok tt s4 /\
  macro_into_inner (bump_env dbg60) item_x w' s4 = Ok (EV "Text" [a_string]) s4 /\
  macro_into_inner (bump_env dbg60) item_x w s4 = Ok v_text s4.
Proof.
  destruct C23_clone_example as (w & s1 & w' & s3 & H & A & _). destruct a_copy_ok as (I & T & T').
  destruct (C23_independent _ _ _ v_text st0 w s1 s1 clone_text (EV "Text" [a_copy]) (KTuple [ty_string]) (KTuple [ty_string]) s1 w' s3
    item_setup (or_introl eq_refl) I T' (proj2 text_fits) H (keeps_refl s1) eq_refl (keeps_refl s1) I T (proj2 text_fits) A) as [X _].
  destruct (X (leaf_hty ty_string) (fun _ => [a_string]) eq_refl) as (s4 & Y); [exact T'|].
  exists w, w', s3, s4. exact Y.
Qed.
