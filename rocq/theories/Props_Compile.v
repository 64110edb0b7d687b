(** Which calls of [tagged_box!] compile, and that what compiles works: C63. *)
From Coq Require Import Arith NArith String Bool List Lia.
From Verif Require Import Words Config Spec Pointer Mem Box SpecMem Arms Macro SpecMacro MemFacts MacroFacts Tokens SpecTokens Heads SpecHeads
  Traits Names SpecNames Compile SpecCompile Bump Props_Pointer Props_Macro Props_Tokens Props_Traits Props_Names Props_Heads.
Import ListNotations.
Local Open Scope string_scope.

(** ** Reflection *)

Lemma exists_eqb n l : existsb (String.eqb n) l = true <-> In n l.
Proof.
  rewrite existsb_exists. split.
  - intros (m & H & E). apply String.eqb_eq in E. congruence.
  - intros H. exists n. split; [exact H|apply String.eqb_refl].
Qed.

Lemma no_repeat_iff l : no_repeat l = true <-> NoDup l.
Proof.
  induction l as [|n l IH]; cbn [no_repeat]; [split; [constructor|reflexivity]|].
  rewrite andb_true_iff, negb_true_iff, <- not_true_iff_false, exists_eqb, IH. split.
  - intros [A B]. constructor; assumption.
  - intros H. inversion H; auto.
Qed.

Lemma same_keywords n : In n keywords <-> In n rust_keywords.
Proof.
  assert (K : forall l r, forallb (fun n => existsb (String.eqb n) r) l = true -> In n l -> In n r).
  { intros l r H Hn. rewrite forallb_forall in H. apply exists_eqb, H, Hn. }
  split; apply K; vm_compute; reflexivity.
Qed.

Lemma is_name_iff n : is_name n = true <-> ~ In n rust_keywords.
Proof. unfold is_name. rewrite negb_true_iff, <- not_true_iff_false, exists_eqb, same_keywords. reflexivity. Qed.

Lemma names_iff l : forallb is_name l = true <-> forall n, In n l -> ~ In n rust_keywords.
Proof. rewrite forallb_forall. split; intros H n Hn; apply is_name_iff, H, Hn. Qed.

Lemma declared_iff x : enum_declared x = true <->
  NoDup (map fst (x_enum x)) /\ (forall v ms, In (v, KStruct ms) (x_enum x) -> NoDup (map fst ms)) /\
  (forall n, In n (map fst (x_enum x)) \/ (exists v ms, In (v, KStruct ms) (x_enum x) /\ In n (map fst ms)) -> ~ In n rust_keywords).
Proof.
  unfold enum_declared. rewrite !andb_true_iff, no_repeat_iff, names_iff, forallb_forall. split.
  - intros [[A B] C]. split; [exact A|]. split.
    + intros v ms H. specialize (C _ H). cbn [snd] in C. apply andb_true_iff in C as [C _]. apply no_repeat_iff, C.
    + intros n [H|(v & ms & H & Hn)]; [apply B, H|]. specialize (C _ H). cbn [snd] in C. apply andb_true_iff in C as [_ C].
      rewrite names_iff in C. apply C, Hn.
  - intros (A & B & C). split; [split; [exact A|intros n H; apply C; left; exact H]|].
    intros [v [|tys|ms]] H; cbn [snd]; try reflexivity. apply andb_true_iff. split; [apply no_repeat_iff, (B v), H|].
    apply names_iff. intros n Hn. apply C. right. exists v, ms. auto.
Qed.

Lemma all_froms vs l : gen_all gen_from_impl vs = Some l -> map impl_from (concat l) = concat (map (fun vk => from_keys (snd vk)) vs).
Proof.
  revert l. induction vs as [|[v k] vs IH]; intros l H; cbn [gen_all] in H; [injection H as <-; reflexivity|].
  destruct (gen_from_impl v k) as [a|] eqn:G; [|discriminate H]. destruct (gen_all gen_from_impl vs) as [b|] eqn:R; [|discriminate H].
  injection H as <-. cbn [concat map]. rewrite map_app, (IH b eq_refl). f_equal. cbn [snd]. clear R IH.
  destruct k as [|[|t [|u tys]]|ms]; cbn [gen_from_impl] in G.
  - injection G as <-. reflexivity.
  - destruct (expand_tuple []); [|discriminate G]. injection G as <-. reflexivity.
  - injection G as <-. reflexivity.
  - destruct (expand_tuple (t :: u :: tys)); [|discriminate G]. injection G as <-. reflexivity.
  - injection G as <-. reflexivity.
Qed.

Lemma apart_iff def x : expand def = Some x -> froms_apart x = true <->
  NoDup (e_container def :: e_name def :: concat (map (fun vk => from_keys (snd vk)) (e_variants def))).
Proof.
  intros Hx. apply expand_inv in Hx. destruct (xp_froms _ _ Hx) as (l & G & F).
  unfold froms_apart. rewrite no_repeat_iff, (xp_container _ _ Hx), (xp_name _ _ Hx), F, (all_froms _ _ G). reflexivity.
Qed.

(** ** Derives *)

Lemma derive_named_iff n t : derive_named n = Some t <-> n = trait_name t /\ t <> TDisplay /\ t <> TDrop.
Proof.
  split.
  - unfold derive_named. cbn [assoc].
    repeat match goal with |- (if String.eqb n ?s then _ else _) = _ -> _ =>
      destruct (String.eqb_spec n s) as [->|_]; [intros H; injection H as <-; repeat split; discriminate|] end.
    discriminate.
  - intros (-> & H1 & H2). destruct t; try reflexivity; contradiction.
Qed.

Lemma derive_list_iff : forall l ds, derive_list l = Some ds <-> separated l ds /\ ~ In TDisplay ds /\ ~ In TDrop ds.
Proof.
  assert (A : forall n l, length l <= n -> forall ds, derive_list l = Some ds -> separated l ds /\ ~ In TDisplay ds /\ ~ In TDrop ds).
  { induction n as [|n IH]; intros l Hl ds H.
    - destruct l; [|cbn in Hl; lia]. injection H as <-. repeat split; [constructor|intros []|intros []].
    - destruct l as [|[s| | | | | | |] l]; try discriminate H.
      { injection H as <-. repeat split; [constructor|intros []|intros []]. }
      cbn [derive_list] in H. destruct (derive_named s) as [t|] eqn:N; [|discriminate H]. apply derive_named_iff in N as (-> & N1 & N2).
      destruct l as [|[| | | | | | |] l]; try discriminate H.
      + injection H as <-. repeat split; [constructor|intros [E|[]]; auto|intros [E|[]]; auto].
      + cbn [option_map] in H. destruct (derive_list l) as [r|] eqn:R; [|discriminate H]. injection H as <-.
        apply IH in R as (S & D1 & D2); [|cbn in Hl; lia]. repeat split; [constructor; exact S|intros [E|E]; auto|intros [E|E]; auto]. }
  intros l ds. split; [apply (A (length l)), le_n|]. intros (S & D1 & D2). induction S as [|t|t l ds S IH].
  - reflexivity.
  - cbn [derive_list]. rewrite (proj2 (derive_named_iff _ t)); [reflexivity|]. split; [reflexivity|]. split; intros ->; [apply D1|apply D2]; left; reflexivity.
  - cbn [derive_list]. rewrite (proj2 (derive_named_iff _ t)).
    + rewrite IH; [reflexivity|intros H; apply D1; right; exact H|intros H; apply D2; right; exact H].
    + split; [reflexivity|]. split; intros ->; [apply D1|apply D2]; left; reflexivity.
Qed.

Lemma is_attr_iff n m : is_attr n m = true <-> m_path m = [n].
Proof.
  unfold is_attr. destruct (m_path m) as [|a [|b p]]; [split; discriminate| |split; discriminate].
  rewrite String.eqb_eq. split; [intros ->; reflexivity|intros H; injection H as ->; reflexivity].
Qed.

Lemma derives_iff : forall ms ds, derives ms = Some ds <-> asks_for ms ds /\ ~ In TDisplay ds /\ ~ In TDrop ds.
Proof.
  induction ms as [|m ms IH]; intros ds.
  - cbn [derives]. split.
    + intros H. injection H as <-. repeat split; [constructor|intros []|intros []].
    + intros (H & _). inversion H. reflexivity.
  - cbn [derives]. destruct (is_attr "derive" m) eqn:A.
    + apply is_attr_iff in A. split.
      * intros H. destruct m as [p a]. cbn [m_path m_args] in *. subst p. destruct a as [|[] l|]; try discriminate H.
        destruct (derive_list l) as [b|] eqn:B; [|discriminate H]. destruct (derives ms) as [r|] eqn:R; [|discriminate H]. injection H as <-.
        apply derive_list_iff in B as (B & B1 & B2). destruct (proj1 (IH r) eq_refl) as (R0 & R1 & R2).
        repeat split; [constructor; assumption| |]; intros H; apply in_app_or in H as [H|H]; auto.
      * intros (H & D1 & D2). inversion H as [|l b ms' r S R|m' ms' ds' N R]; subst; [|contradiction].
        cbn [m_args]. assert (B : derive_list l = Some b).
        { apply derive_list_iff. repeat split; [exact S| |]; intros K; [apply D1|apply D2]; apply in_or_app; auto. }
        rewrite B. rewrite (proj2 (IH r)); [reflexivity|]. repeat split; [exact R| |]; intros K; [apply D1|apply D2]; apply in_or_app; auto.
    + assert (N : m_path m <> ["derive"]) by (intros K; apply is_attr_iff in K; rewrite K in A; discriminate A).
      rewrite IH. split; intros (H & D).
      * split; [constructor; assumption|exact D].
      * split; [|exact D]. inversion H as [|l b ms' r S R|m' ms' ds' N' R]; subst; [cbn [m_path] in N; contradiction N; reflexivity|exact R].
Qed.

Lemma derives_app ms : derives (ms ++ [Meta ["repr"] (AGroup Paren [TId "transparent"])]) = derives ms.
Proof.
  induction ms as [|m ms IH]; [reflexivity|]. cbn [app derives]. rewrite IH. reflexivity.
Qed.

(** ** Impls *)

Lemma closed_iff l : closed l <-> with_supers l.
Proof.
  unfold closed, with_supers. split.
  - intros H. repeat split.
    + intros K. apply (H TCopy); [exact K|left; reflexivity].
    + intros [K|K]; [apply (H TEq)|apply (H TPartialOrd)]; (exact K || left; reflexivity).
    + apply (H TOrd); [assumption|left; reflexivity].
    + apply (H TOrd); [assumption|right; left; reflexivity].
  - intros (A & B & C) t s Ht Hs. destruct t; cbn in Hs; try contradiction;
      repeat (destruct Hs as [<-|Hs]; [|]); try contradiction; try tauto.
Qed.

Lemma in_types def f : In f (all_types def) <-> exists v k, In (v, k) (e_variants def) /\ In f (kind_types k).
Proof.
  unfold all_types. rewrite <- flat_map_concat_map, in_flat_map. split.
  - intros ([v k] & H & K). exists v, k. auto.
  - intros (v & k & H & K). exists (v, k). auto.
Qed.

Lemma impls_iff fh def x ds ie is : expand def = Some x ->
  impls_compile fh x (Tdef ds ie is) = true <-> impls_ok fh (e_variants def) ds ie is.
Proof.
  intros Hx. rewrite (C53_accepted _ _ _ _ Hx). cbn [t_derives t_enum t_struct]. rewrite !closed_iff. split.
  - intros ([P1 P2 P3 P4 P5 P6] & H1 & H2 & H3 & H4 & H5 & H6 & H7). rewrite closed_iff in P4. constructor; auto.
    + intros t Ht. specialize (P2 t Ht). cbn in P2 |- *. intuition (subst; tauto).
    + intros t v k f [Ht|[-> Ht]] Hv Hf; [apply P3|apply P5]; try assumption; apply in_types; exists v, k; auto.
    + intros H v k f Hv Hf. apply H6; [exact H|]. apply in_types. exists v, k. auto.
  - intros [I1 I2 [I3 I4] [I5 I6] I7 I8 I9 I10 I11]. split.
    + constructor; auto.
      * intros t Ht. specialize (I1 t Ht). cbn in *. tauto.
      * intros t f Ht Hf. apply in_types in Hf as (v & k & Hv & Hk). apply (I2 t v k f); auto.
      * apply closed_iff, I5.
      * intros Ht f Hf. apply in_types in Hf as (v & k & Hv & Hk). apply (I2 TCopy v k f); auto.
      * tauto.
    + split. { intros Ht. specialize (I1 _ Ht). cbn in I1. intuition discriminate. }
      split; [exact I7|]. split; [exact I4|]. split; [exact I6|]. split; [exact I9|]. split.
      * intros H f Hf. apply in_types in Hf as (v & k & Hv & Hk). apply (I10 H v k f); auto.
      * intros H. apply I11 in H. unfold dataless. exact H.
Qed.

Lemma tuples_counted (vs : list (string * vkind)) :
  length (filter (fun vk => match snd vk with KTuple [_] => false | KTuple _ => true | _ => false end) vs) = other_tuples vs.
Proof. unfold other_tuples. f_equal. apply filter_ext. intros [v [|[|t [|u l]]|ms]]; reflexivity. Qed.

(** ** C63 *)

(** The call compiles exactly if it is the text of a definition of the required form. *)
Theorem C63_exact : forall c cs s e, parser_ok (cs_parse cs) -> In c table ->
  (exists x, compiles c cs s e x) <->
  exists h toks vs ds, cs_tokens cs = write_head h toks /\ head_wf h /\ variant_list (cs_parse cs) toks vs /\ acceptable c cs h vs ds /\
    s = Item (h_metas h ++ [Meta ["repr"] (AGroup Paren [TId "transparent"])]) (h_svis h) (h_struct h) /\
    e = Item (h_metas h) (h_evis h) (h_enum h).
Proof.
  intros c cs s e Hp Hc. split.
  - intros (x & ds & T & Ds & De & Co & Na & Dc & Fr & Im & Ty & Nm). apply andb_true_iff in Na as [Na1 Na2].
    apply C62_items in T as (h & toks & Et & W & N & Es & Ee & M). rewrite (C32_macro _ Hp) in M. destruct M as (vs & L & Lim & X).
    exists h, toks, vs, ds. split; [exact Et|]. split; [exact W|]. split; [exact L|]. split; [|split; assumption].
    subst s e. cbn [i_attrs i_name] in *. pose proof (expand_inv _ _ X) as XP.
    assert (Ev : x_enum x = vs) by apply (xp_enum _ _ XP).
    assert (Ec : x_container x = h_struct h) by apply (xp_container _ _ XP). assert (En : x_name x = h_enum h) by apply (xp_name _ _ XP).
    destruct (proj1 (C33_limit _) (ex_intro _ x X)) as [Some32 Ar]. cbn [e_variants] in *.
    apply declared_iff in Dc as (D1 & D2 & D3). rewrite Ev in *. apply is_name_iff in Na1, Na2.
    apply (C62_accepted (cs_cfg cs) (cs_here cs) h) in Co as (V1 & V2 & V3 & R & K).
    apply derives_iff in De as (De & _). apply (apart_iff _ _ X) in Fr. apply (impls_iff _ _ _ _ _ _ X) in Im.
    apply (C31_exact _ _ _ Hc X) in Ty. rewrite Ec, En in Nm.
    assert (S1 : h_enum h <> "Self") by (intros K'; apply Na2; rewrite K'; cbn; tauto).
    assert (S2 : h_struct h <> "Self") by (intros K'; apply Na1; rewrite K'; cbn; tauto).
    apply (C49_names _ _ _ _ X S1 S2) in Nm. cbn [e_variants e_container e_name] in *.
    constructor; try assumption; try (split; [|split]; assumption); [rewrite tuples_counted; exact Lim|].
    intros n [->|[->|Hn]]; auto.
  - intros (h & toks & vs & ds & Et & W & L & [A1 A2 A3 A4 A5 A6 A7 A8 A9 A10 A11 A12 A13 A14] & -> & ->).
    set (d := has TDrop (cs_enum_impls cs)). set (cp := has TCopy (ds ++ cs_enum_impls cs)).
    destruct (proj2 (C33_limit (Edef (h_struct h) (h_enum h) (cs_align cs) d cp vs)) (conj A1 A2)) as [x X].
    pose proof (expand_inv _ _ X) as XP. assert (Ev : x_enum x = vs) by apply (xp_enum _ _ XP).
    assert (Ec : x_container x = h_struct h) by apply (xp_container _ _ XP). assert (En : x_name x = h_enum h) by apply (xp_name _ _ XP).
    exists x, ds. cbn [i_attrs i_name].
    assert (De : derives (h_metas h) = Some ds).
    { apply derives_iff. split; [exact A12|]. split; intros H; apply (io_derive _ _ _ _ _ A13) in H; cbn in H; intuition discriminate. }
    split.
    { apply C62_items. exists h, toks. split; [exact Et|]. split; [exact W|]. split.
      - intros ->. apply A1. inversion L. reflexivity.
      - do 2 (split; [reflexivity|]). apply (C32_macro _ Hp). exists vs. split; [exact L|]. split; [rewrite <- tuples_counted; exact A3|exact X]. }
    split; [rewrite derives_app; exact De|]. split; [exact De|].
    split. { apply (C62_accepted (cs_cfg cs) (cs_here cs) h). tauto. }
    split. { apply andb_true_iff. split; apply is_name_iff, A6; tauto. }
    split. { apply declared_iff. rewrite Ev. split; [exact A4|]. split; [exact A5|]. intros n Hn. apply A6. tauto. }
    split; [apply (apart_iff _ _ X), A8|]. split; [apply (impls_iff _ _ _ _ _ _ X), A13|].
    split; [apply (C31_exact _ _ _ Hc X), A14|]. rewrite Ec, En.
    apply (C49_names _ _ _ _ X); [| |exact A7]; cbn [e_name e_container]; intros K; [apply (A6 (h_enum h))|apply (A6 (h_struct h))]; try tauto; rewrite K; cbn; tauto.
Qed.

(** What compiles satisfies the premises of all theorems about generated code. *)
Theorem C63_setup : forall E cs s e x, parser_ok (cs_parse cs) -> env_ok E -> types_sane cs (x_enum x) ->
  compiles (cfg (tgt E)) cs s e x ->
  exists d c, macro_setup E (Edef (i_name s) (i_name e) (cs_align cs) d c (x_enum x)) x /\
    (d = true <-> In TDrop (cs_enum_impls cs)) /\
    (c = true <-> In TCopy (cs_enum_impls cs) \/ exists ds, asks_for (i_attrs e) ds /\ In TCopy ds).
Proof.
  intros E cs s e x Hp He [Ha Hty] (ds & T & Ds & De & Co & Na & Dc & Fr & Im & Ty & Nm).
  set (d := has TDrop (cs_enum_impls cs)) in *. set (cp := has TCopy (ds ++ cs_enum_impls cs)) in *.
  apply C62_items in T as (h & toks & Et & W & N & Es & Ee & M). rewrite (C32_macro _ Hp) in M. destruct M as (vs & L & Lim & X).
  pose proof (expand_inv _ _ X) as XP. assert (Ev : x_enum x = vs) by apply (xp_enum _ _ XP).
  exists d, cp. assert (A : asks_for (i_attrs e) ds) by (apply derives_iff in De; tauto).
  assert (Hin : forall f, In f (all_types (Edef (h_struct h) (h_enum h) (cs_align cs) d cp vs)) -> wf_ty f /\ cs_has cs f TCopy = ty_copy f /\ (ty_copy f = true -> ty_drop f = false)).
  { intros f Hf. apply in_types in Hf as (v & k & Hv & Hk). cbn [e_variants] in Hv. rewrite <- Ev in Hv. eapply Hty; eassumption. }
  apply (impls_iff _ _ _ _ _ _ X) in Im. cbn [e_variants] in Im. destruct Im as [I1 I2 I3 I4 I5 I6 I7 I8 I9].
  apply declared_iff in Dc as (D1 & D2 & D3). apply (apart_iff _ _ X) in Fr. cbn [e_variants e_container e_name] in Fr.
  destruct (proj1 (C33_limit _) (ex_intro _ x X)) as [Some32 Ar]. cbn [e_variants] in *. rewrite Ev in *.
  subst s e. cbn [i_name i_attrs] in *. split; [|split].
  - constructor; [exact He| |exact X|exact Ty]. constructor; cbn [e_variants e_container e_name e_align e_drop e_copy]; auto.
    + apply Forall_forall. intros f Hf. apply Hin, Hf.
    + intros H. apply Forall_forall. intros f Hf. destruct (Hin f Hf) as (_ & <- & _). apply in_types in Hf as (v & k & Hv & Hk). cbn [e_variants] in Hv.
      destruct H as [H|H].
      * apply has_in, in_app_or in H. apply (I2 TCopy v k f); tauto.
      * apply has_in in H. apply (I8 H v k f); assumption.
    + intros H. apply has_in in H. apply has_not. apply I6, H.
    + apply Forall_forall. intros f Hf. apply Hin, Hf.
  - apply has_in.
  - unfold cp. rewrite has_in, in_app_iff. split.
    + intros [H|H]; [right; exists ds; auto|left; exact H].
    + intros [H|(ds' & A' & H)]; [right; exact H|left].
      assert (B : forall ms a b, asks_for ms a -> asks_for ms b -> a = b).
      { assert (S : forall l a b, separated l a -> separated l b -> a = b).
        { assert (T : forall t u, trait_name t = trait_name u -> t = u) by (intros [] []; cbn; congruence).
          intros l a b HA. revert b. induction HA as [|t|t l a HA IH]; intros b HB.
          - inversion HB. reflexivity.
          - inversion HB as [|u E1|]; subst. apply T in E1. subst. reflexivity.
          - inversion HB as [| |u l' b' HB' E1]; subst. apply T in E1. subst. f_equal. apply IH, HB'. }
        intros ms a b HA. revert b. induction HA as [|l a ms r Sa HA IH|m ms a Nm' HA IH]; intros b HB.
        - inversion HB. reflexivity.
        - inversion HB as [|l' b' ms' r' Sb HB'|m' ms' b' Nb HB']; subst; [|contradiction Nb; reflexivity].
          rewrite (S _ _ _ Sa Sb), (IH _ HB'). reflexivity.
        - inversion HB as [|l' b' ms' r' Sb HB'|m' ms' b' Nb HB']; subst; [contradiction Nm'; reflexivity|]. apply IH, HB'. }
      rewrite (B _ _ _ A A'). exact H.
Qed.

(** So it works: with enough tags, every value of the enum comes back unchanged from a container, whatever happens in between to other
    memory, unless the container could not be made for lack of memory. *)
Theorem C63_works : forall E cs s e x v st, parser_ok (cs_parse cs) -> env_ok E -> types_sane cs (x_enum x) ->
  compiles (cfg (tgt E)) cs s e x -> (N.of_nat (length (x_enum x)) <= max_discriminant (cfg (tgt E)) + 1)%N ->
  (exists k, In (ev_variant v, k) (x_enum x) /\ Forall2 has_type (kind_types k) (ev_fields v)) ->
  (exists w s1, container_from E x v st = Ok w s1 /\ keeps st s1 /\
     forall s2, keeps s1 s2 -> macro_into_inner E x w s2 = Ok v s2) \/
  (exists k U s1, In (ev_variant v, k) (x_enum x) /\ storage k = Some U /\ h_size U <> 0%N /\
     alloc_fn E st (h_size U) (h_align U) = None /\ container_from E x v st = Panicked PanicNullAlloc s1).
Proof.
  intros E cs s e x v st Hp He Ht Hc Hfit (k & Hk & HF). destruct (C63_setup _ _ _ _ _ Hp He Ht Hc) as (d & c & Hs & _).
  destruct (C26_round_trip _ _ _ v st Hs) as [H|H].
  - split; [exists k; auto|]. apply In_nth_error in Hk as [i Hi]. exists i, k. split; [exact Hi|].
    assert (i < length (x_enum x)) by (apply nth_error_Some; rewrite Hi; discriminate). lia.
  - left. exact H.
  - right. exact H.
Qed.

(** ** Examples *)

(** The definition of [demo_head] and [item_tokens], in a module [crate::a]. *)
Definition demo_site (ts : list tree) : callsite :=
  Callsite ts ["a"] [] [] nothing_else 64 (fun _ => false) demo by_name usual 8.
Definition demo_call : callsite := demo_site (demo_head_tokens ++ [TGroup Brace item_tokens]).
Definition demo_def : edef := Edef "Container" "Item" 8 false false item_variants.
Definition demo_x : expansion :=
  match expand demo_def with Some x => x | None => Expansion "" "" 1 false false [] [] 0 [] [] [] [] [] end.

Lemma demo_compiles : compiles cfg60 demo_call (struct_item demo_head) (enum_item demo_head) demo_x.
Proof.
  exists [TDebug; TClone]. split.
  - apply C62_items. exists demo_head, item_tokens.
    destruct (proj1 (C62_syntax _ _ _) (proj1 C62_syntax_example)) as (T & W & N).
    split; [exact T|]. split; [exact W|]. split; [exact N|]. split; [reflexivity|]. split; [reflexivity|].
    apply (C32_macro demo demo_ok). exists item_variants. split; [apply C32_macro_example|]. split; [cbn; lia|reflexivity].
  - do 8 (split; [vm_compute; reflexivity|]). split; [discriminate|]. repeat constructor.
Qed.

Example C63_exact_example : exists vs, variant_list demo item_tokens vs /\ acceptable cfg60 demo_call demo_head vs [TDebug; TClone].
Proof.
  destruct (proj1 (C63_exact cfg60 demo_call (struct_item demo_head) (enum_item demo_head) demo_ok (proj1 (proj1 example_targets_ok)))
    (ex_intro _ demo_x demo_compiles)) as (h & toks & vs & ds & T & W & L & A & _ & Ee).
  assert (P : p_head (write_head h toks) = Some (demo_head, item_tokens)) by (rewrite <- T; apply C62_syntax_example).
  rewrite (proj2 (C62_syntax _ h toks)) in P by (repeat split; try apply W; intros ->; inversion L; subst; apply (ac_some _ _ _ _ _ A); reflexivity).
  injection P as -> ->. exists vs. split; [exact L|].
  assert (D : ds = [TDebug; TClone]); [|rewrite <- D; exact A].
  pose proof (ac_derives _ _ _ _ _ A) as K. assert (Q : derives (h_metas demo_head) = Some ds); [|injection Q as <-; reflexivity].
  apply derives_iff. split; [exact K|]. split; intros H; apply (io_derive _ _ _ _ _ (ac_impls _ _ _ _ _ A)) in H; cbn in H; intuition discriminate.
Qed.

(** With [Hash] derived as well, or with a container called [Self], it does not compile. *)
Definition hashed : head := Head [Meta ["derive"] (AGroup Paren [TId "Hash"; TComma; TId "Clone"])] VCrate "Container" VPub "Item".
Definition keyworded : head := Head [] VCrate "Self" VPub "Item".
Example C63_refused_example : Forall (fun h => forall c s e x, In c table -> ~ compiles c (demo_site (write_head h item_tokens)) s e x) [hashed; keyworded].
Proof.
  assert (G : forall h, head_wf h -> (forall c vs ds, ~ acceptable c (demo_site (write_head h item_tokens)) h vs ds) ->
    forall c s e x, In c table -> ~ compiles c (demo_site (write_head h item_tokens)) s e x).
  { intros h W H c s e x Hc K.
    destruct (proj1 (C63_exact c (demo_site (write_head h item_tokens)) s e demo_ok Hc) (ex_intro _ x K)) as (h' & toks & vs & ds & T & W' & L & A & _).
    cbn [cs_tokens demo_site] in T. assert (P : p_head (write_head h' toks) = Some (h, item_tokens)) by (rewrite <- T; apply C62_syntax; repeat split; [apply W..|discriminate]).
    rewrite (proj2 (C62_syntax _ h' toks)) in P by (repeat split; try apply W'; intros ->; inversion L; subst; apply (ac_some _ _ _ _ _ A); reflexivity).
    injection P as -> ->. exact (H _ _ _ A). }
  constructor; [|constructor; [|constructor]]; apply G.
  - repeat split; try discriminate; repeat constructor; discriminate.
  - intros c vs ds A. assert (Q : derives (h_metas hashed) = Some ds).
    { apply derives_iff. split; [apply A|]. split; intros H; apply (io_derive _ _ _ _ _ (ac_impls _ _ _ _ _ A)) in H; cbn in H; intuition discriminate. }
    injection Q as <-. pose proof (io_derive _ _ _ _ _ (ac_impls _ _ _ _ _ A) THash (or_introl eq_refl)) as H. cbn in H. intuition discriminate.
  - repeat split; try discriminate; repeat constructor; discriminate.
  - intros c vs ds A. apply (ac_keywords _ _ _ _ _ A "Self"); [left; reflexivity|]. cbn. tauto.
Qed.

Lemma demo_sane : types_sane demo_call (x_enum demo_x).
Proof.
  split; [exists 3%N; split; [lia|reflexivity]|]. intros v k f Hv Hf.
  assert (I : In f [ty_i32; ty_bool; ty_string; ty_u8; ty_u32; ty_u64]).
  { vm_compute in Hv. repeat (destruct Hv as [Hv|Hv]; [injection Hv as <- <-; cbn in Hf; cbn; tauto|]). destruct Hv. }
  clear Hv Hf. cbn in I. repeat (destruct I as [<-|I]; [split; [|split; [reflexivity|first [reflexivity|discriminate]]]; split; [|reflexivity]|]).
  7: destruct I.
  all: first [exists 0%N; split; [lia|reflexivity]|exists 2%N; split; [lia|reflexivity]|exists 3%N; split; [lia|reflexivity]].
Qed.

Example C63_setup_example : macro_setup (bump_env dbg60) demo_def demo_x.
Proof.
  destruct (C63_setup (bump_env dbg60) demo_call _ _ _ demo_ok (bump_env_ok _ (proj1 example_targets_ok)) demo_sane demo_compiles) as (d & c & H & D & C).
  assert (Ed : d = false) by (destruct d; [|reflexivity]; destruct (proj1 D eq_refl)).
  assert (Ec : c = false).
  { destruct c; [|reflexivity]. destruct (proj1 C eq_refl) as [[]|(ds & A & I)]. exfalso. inversion A as [|l a ms r S R|m ms a N R]; subst.
    inversion R as [|l a ms r S R'|m ms b N' R']; subst; [|apply N'; reflexivity]. inversion R'; subst.
    inversion S as [| |t l0 ds0 S1 E1]; subst. inversion S1 as [|t' E2|]; subst. destruct t; try discriminate E1; destruct t'; try discriminate E2.
    cbn in I. intuition discriminate. }
  subst. exact H.
Qed.

(** A [String] goes in and comes out. *)
Example C63_works_example : exists w s1, container_from (bump_env dbg60) demo_x (EV "Text" [a_string]) st0 = Ok w s1 /\
  macro_into_inner (bump_env dbg60) demo_x w s1 = Ok (EV "Text" [a_string]) s1.
Proof.
  destruct (C63_works (bump_env dbg60) demo_call _ _ demo_x (EV "Text" [a_string]) st0 demo_ok (bump_env_ok _ (proj1 example_targets_ok)) demo_sane demo_compiles)
    as [(w & s1 & R & _ & K)|(k & U & s1 & I & S & Z & A & _)].
  - vm_compute. discriminate.
  - exists (KTuple [ty_string]). split; [cbn; tauto|]. repeat constructor.
  - exists w, s1. split; [exact R|]. apply K. apply keeps_refl.
  - exfalso. cbn in I. repeat (destruct I as [I|I]; [first [discriminate I|injection I as <-]|]); [|destruct I].
    cbn in S. injection S as <-. vm_compute in A. discriminate A.
Qed.

Print Assumptions C63_exact.
Print Assumptions C63_setup.
Print Assumptions C63_works.
