(** Which derives and impls [tagged_box!] accepts: C53. *)
From Coq Require Import Arith NArith String Bool List Lia.
From Verif Require Import Words Config Mem Macro SpecMacro MacroFacts Traits Bump Bump Props_Macro.
Import ListNotations.

(** ** Spec *)

(** Every trait in [l] comes with its supertraits. *)
Definition closed (l : list trait) : Prop :=
  forall t s, In t l -> In s (match t with
                              | TCopy => [TClone] | TEq | TPartialOrd => [TPartialEq] | TOrd => [TEq; TPartialOrd; TPartialEq]
                              | _ => [] end) -> In s l.

(** Rust's rules for the enum on its own, as if written without the macro. *)
Record plain_enum_ok (field_has : rty -> trait -> bool) (def : edef) (derived written : list trait) : Prop := {
  pe_once : NoDup (derived ++ written);
  pe_derivable : forall t, In t derived -> In t [TClone; TCopy; TDebug; TPartialEq; TEq; TPartialOrd; TOrd; THash];
  pe_fields : forall t f, In t derived -> In f (all_types def) -> field_has f t = true;
  pe_closed : closed (derived ++ written);
  pe_copy : In TCopy written -> forall f, In f (all_types def) -> field_has f TCopy = true;
  pe_drop : ~ (In TCopy (derived ++ written) /\ In TDrop written)
}.

(** A variant without data. *)
Definition dataless (k : vkind) : Prop := k = KUnit \/ k = KTuple [].

(** ** Reflection *)

Lemma trait_eqb_eq a b : trait_eqb a b = true <-> a = b.
Proof. destruct a, b; cbn; split; intros H; congruence. Qed.

Lemma has_in t l : has t l = true <-> In t l.
Proof.
  unfold has. rewrite existsb_exists. split.
  - intros (u & H & E). apply trait_eqb_eq in E. congruence.
  - intros H. exists t. split; [exact H|]. apply trait_eqb_eq. reflexivity.
Qed.

Lemma has_not t l : has t l = false <-> ~ In t l.
Proof. rewrite <- has_in. destruct (has t l); split; intros; congruence. Qed.

Lemma distinct_nodup l : distinct l = true <-> NoDup l.
Proof.
  induction l as [|t l IH]; cbn [distinct]; [split; [constructor|reflexivity]|].
  rewrite andb_true_iff, negb_true_iff, has_not, IH. split.
  - intros [A B]. constructor; assumption.
  - intros H. inversion H; auto.
Qed.

Lemma closed_supers l : (forall t s, In t l -> In s (supertraits t) -> In s l) <-> closed l.
Proof.
  split.
  - intros H t s Ht Hs. destruct t; cbn in Hs; try contradiction;
      repeat (destruct Hs as [<-|Hs]; [|]); try contradiction; try (eapply H; [exact Ht|cbn; tauto]).
    apply (H TEq); [|cbn; tauto]. apply (H TOrd); [exact Ht|cbn; tauto].
  - intros H t s Ht Hs. apply (H t); [exact Ht|]. destruct t; cbn in *; tauto.
Qed.

Lemma rules_iff ds ws fh : rules ds ws fh = true <->
  NoDup (ds ++ ws) /\ (forall t, In t ds -> derivable t = true /\ fh t = true) /\ closed (ds ++ ws) /\
  (In TCopy (ds ++ ws) -> fh TCopy = true /\ ~ In TDrop (ds ++ ws)).
Proof.
  unfold rules. rewrite !andb_true_iff, distinct_nodup, !forallb_forall, <- closed_supers.
  assert (A : (forall t, In t (ds ++ ws) -> forallb (fun s => has s (ds ++ ws)) (supertraits t) = true) <->
              (forall t s, In t (ds ++ ws) -> In s (supertraits t) -> In s (ds ++ ws))).
  { split.
    - intros H t s Ht Hs. specialize (H t Ht). rewrite forallb_forall in H. apply has_in, H, Hs.
    - intros H t Ht. apply forallb_forall. intros s Hs. apply has_in. eapply H; eassumption. }
  rewrite A.
  assert (B : (if has TCopy (ds ++ ws) then fh TCopy && negb (has TDrop (ds ++ ws)) else true) = true <->
              (In TCopy (ds ++ ws) -> fh TCopy = true /\ ~ In TDrop (ds ++ ws))).
  { destruct (has TCopy (ds ++ ws)) eqn:Ec.
    - apply has_in in Ec. rewrite andb_true_iff, negb_true_iff, has_not. tauto.
    - apply has_not in Ec. tauto. }
  rewrite B. split.
  - intros (((H1 & H2) & H3) & H4). split; [exact H1|]. split; [|split; assumption].
    intros t Ht. specialize (H2 t Ht). apply andb_true_iff in H2. exact H2.
  - intros (H1 & H2 & H3 & H4). repeat split; try assumption; try (apply H4; assumption).
    intros t Ht. apply andb_true_iff. apply H2, Ht.
Qed.

(** ** C53: the impls of the box *)

(** What [TaggedBox<T>] implements, for a [T] implementing [l]: the same, except that [Debug] and
    [Display] also want [Clone], and that [Hash], [Default] and [Drop] are never implemented. *)
Theorem C53_box l t : box_has l t = true <->
  In t l /\ t <> THash /\ t <> TDefault /\ t <> TDrop /\ (t = TDebug \/ t = TDisplay -> In TClone l).
Proof.
  unfold box_has. rewrite existsb_exists. unfold box_impls. split.
  - intros ([u r] & H & Q). cbn [fst snd] in Q. apply andb_true_iff in Q as [Q1 Q2]. apply trait_eqb_eq in Q1. subst u.
    rewrite forallb_forall in Q2. assert (Q3 : forall y, In y r -> In y l) by (intros y Hy; apply has_in, Q2, Hy). clear Q2.
    cbn [In] in H. repeat (destruct H as [H|H]; [injection H as <- <-; cbn [In] in Q3; repeat split; auto; try discriminate; intros [K|K]; discriminate|]).
    destruct H.
  - intros (H & H1 & H2 & H3 & H4).
    assert (A : forall r, In (t, r) box_impls -> (forall y, In y r -> In y l) -> exists x, In x box_impls /\
              (trait_eqb (fst x) t && forallb (fun r0 => has r0 l) (snd x)) = true).
    { intros r Hr Hs. exists (t, r). split; [exact Hr|]. cbn [fst snd]. apply andb_true_iff. split; [apply trait_eqb_eq; reflexivity|].
      apply forallb_forall. intros y Hy. apply has_in, Hs, Hy. }
    destruct t; try contradiction; eapply A; try (cbn; tauto); cbn [In]; intros y Hy;
      repeat (destruct Hy as [<-|Hy]); try contradiction; auto.
Qed.

(** Where an impl of the box applies, so do those of the supertraits. *)
Theorem C53_coherent l t s : closed l -> box_has l t = true -> In s (supertraits t) -> box_has l s = true.
Proof.
  intros C H Hs. apply C53_box in H as (H & H1 & H2 & H3 & H4). apply C53_box.
  assert (Q : In s l) by (apply (proj2 (closed_supers l) C t); assumption).
  split; [exact Q|]. destruct t; cbn in Hs; repeat (destruct Hs as [<-|Hs]); try contradiction;
    repeat split; try discriminate; intros [K|K]; discriminate.
Qed.

(** ** C53: what is accepted *)

Lemma fields_iff def x : expand def = Some x -> flat_map (fun vk => kind_types (snd vk)) (x_enum x) = all_types def.
Proof. intros H. rewrite (xp_enum _ _ (expand_inv _ _ H)). apply flat_map_concat_map. Qed.

Lemma enum_iff fh def x d : expand def = Some x ->
  (enum_compiles fh x d = true <-> plain_enum_ok fh def (t_derives d) (t_enum d)).
Proof.
  intros Hx. unfold enum_compiles. rewrite (fields_iff _ _ Hx), andb_true_iff, negb_true_iff, has_not, rules_iff.
  assert (A : forall t, forallb (fun f => fh f t) (all_types def) = true <-> (forall f, In f (all_types def) -> fh f t = true)).
  { intros t. apply forallb_forall. }
  split.
  - intros (H0 & H1 & H2 & H3 & H4). constructor; auto.
    + intros t Ht. destruct (H2 t Ht) as [D _]. destruct t; cbn in *; try tauto; discriminate.
    + intros t f Ht. destruct (H2 t Ht) as [_ D]. revert f. apply A, D.
    + intros Hc. apply A. apply H4. apply in_or_app. auto.
    + intros [Hc Hd]. apply (proj2 (H4 Hc)). apply in_or_app. auto.
  - intros [P1 P2 P3 P4 P5 P6]. split; [intros H; apply P2 in H; cbn in H; intuition discriminate|].
    split; [exact P1|]. split; [|split; [exact P4|]].
    + intros t Ht. split; [|apply A; intros f Hf; apply P3; assumption].
      apply P2 in Ht. cbn in Ht. repeat (destruct Ht as [<-|Ht]; [reflexivity|]). contradiction.
    + intros Hc. split.
      * apply A. intros f Hf. apply in_app_or in Hc as [Hc|Hc]; [apply P3|apply P5]; assumption.
      * intros Hd. apply P6. split; [exact Hc|]. apply in_app_or in Hd as [Hd|Hd]; [|exact Hd].
        apply P2 in Hd. cbn in Hd. intuition discriminate.
Qed.

Lemma into_moves_gen v k a : gen_into v k = Some a -> into_moves a = kind_types k.
Proof.
  unfold gen_into, into_moves, kind_types. intros H.
  repeat match type of H with context [match ?y with _ => _ end] => destruct y end; try discriminate; injection H as <-; reflexivity.
Qed.

Lemma inner_moves_gen v k a : gen_inner v k = Some a -> (inner_moves a = false <-> dataless k).
Proof.
  unfold gen_inner, inner_moves, dataless. intros H. destruct k as [|[|t [|t2 r]]|ms].
  - injection H as <-. cbn. tauto.
  - injection H as <-. cbn. tauto.
  - injection H as <-. cbn. split; [discriminate|]. intros [K|K]; discriminate.
  - destruct (expand_tuple (t :: t2 :: r)); [|discriminate]. injection H as <-. cbn. split; [discriminate|]. intros [K|K]; discriminate.
  - injection H as <-. cbn. split; [discriminate|]. intros [K|K]; discriminate.
Qed.

Lemma gen_all_forall {A} (g : string -> vkind -> option A) (P : A -> Prop) (Q : vkind -> Prop) vs l :
  (forall v k a, g v k = Some a -> (P a <-> Q k)) -> gen_all g vs = Some l ->
  ((forall a, In a l -> P a) <-> (forall v k, In (v, k) vs -> Q k)).
Proof.
  intros G. revert l. induction vs as [|[v k] vs IH]; cbn [gen_all]; intros l H.
  - injection H as <-. cbn. split; intros; contradiction.
  - destruct (g v k) as [a|] eqn:Ga; [|discriminate]. destruct (gen_all g vs) as [r|]; [|discriminate]. injection H as <-.
    specialize (IH r eq_refl). cbn [In]. split.
    + intros H v' k' [K|K]; [injection K as <- <-; apply (G v k a Ga), H; auto|]. revert v' k' K. apply IH. auto.
    + intros H a' [<-|K]; [apply (G v k a Ga), (H v k); auto|]. revert a' K. apply IH. eauto.
Qed.

Lemma types_iff def (P : rty -> Prop) : (forall v k, In (v, k) (e_variants def) -> forall f, In f (kind_types k) -> P f) <->
  (forall f, In f (all_types def) -> P f).
Proof.
  unfold all_types. rewrite <- flat_map_concat_map. split.
  - intros H f Hf. apply in_flat_map in Hf as ([v k] & Hv & Hf). eapply H; eassumption.
  - intros H v k Hv f Hf. apply H. apply in_flat_map. exists (v, k). auto.
Qed.

(** The impls of a definition are accepted exactly if the enum would be on its own and the rest holds:
    [Hash] is not derived; [Debug] is derived only for an enum with [Clone]; the struct has each impl
    once, with the supertraits, [Copy] only if the enum does and not together with [Drop]; an enum with
    [Drop] has [Copy] fields only; a struct with [Drop] is one of an enum that is [Copy] or has no data. *)
Theorem C53_accepted fh def x d : expand def = Some x ->
  (impls_compile fh x d = true <->
   plain_enum_ok fh def (t_derives d) (t_enum d) /\
   ~ In THash (t_derives d) /\
   (In TDebug (t_derives d) -> In TClone (t_derives d ++ t_enum d)) /\
   NoDup (t_derives d ++ t_struct d) /\ closed (t_derives d ++ t_struct d) /\
   (In TCopy (t_derives d ++ t_struct d) -> In TCopy (t_derives d ++ t_enum d) /\ ~ In TDrop (t_struct d)) /\
   (In TDrop (t_enum d) -> forall f, In f (all_types def) -> fh f TCopy = true) /\
   (In TDrop (t_struct d) -> In TCopy (t_derives d ++ t_enum d) \/ forall v k, In (v, k) (e_variants def) -> dataless k)).
Proof.
  intros Hx. pose proof (expand_inv _ _ Hx) as Xp. unfold impls_compile. rewrite !andb_true_iff, (enum_iff _ _ _ _ Hx).
  unfold struct_compiles. rewrite rules_iff. unfold moves_compile. rewrite andb_true_iff. unfold enum_traits, struct_traits.
  set (ds := t_derives d). set (he := t_enum d). set (hs := t_struct d).
  assert (D : plain_enum_ok fh def ds he -> forall l, In TDrop (ds ++ l) <-> In TDrop l).
  { intros P l. split; [|intros; apply in_or_app; auto]. intros H. apply in_app_or in H as [H|H]; [|exact H].
    apply (pe_derivable _ _ _ _ P) in H. cbn in H. intuition discriminate. }
  assert (M1 : (if has TDrop (ds ++ he) then forallb (fun a => forallb (fun f => fh f TCopy) (into_moves a)) (x_into x) else true) = true <->
               (In TDrop (ds ++ he) -> forall f, In f (all_types def) -> fh f TCopy = true)).
  { assert (Q : forallb (fun a => forallb (fun f => fh f TCopy) (into_moves a)) (x_into x) = true <->
                (forall f, In f (all_types def) -> fh f TCopy = true)).
    { rewrite forallb_forall, <- types_iff.
      apply (gen_all_forall gen_into (fun a => forallb (fun f => fh f TCopy) (into_moves a) = true)
              (fun k => forall f, In f (kind_types k) -> fh f TCopy = true)); [|apply (xp_into _ _ Xp)].
      intros v k a Ga. rewrite (into_moves_gen _ _ _ Ga). apply forallb_forall. }
    destruct (has TDrop (ds ++ he)) eqn:Eh.
    - apply has_in in Eh. rewrite Q. tauto.
    - apply has_not in Eh. tauto. }
  assert (M2 : (if has TDrop (ds ++ hs) then negb (existsb inner_moves (x_inner x)) || box_has (ds ++ he) TCopy else true) = true <->
               (In TDrop (ds ++ hs) -> In TCopy (ds ++ he) \/ forall v k, In (v, k) (e_variants def) -> dataless k)).
  { assert (Q : negb (existsb inner_moves (x_inner x)) = true <-> (forall v k, In (v, k) (e_variants def) -> dataless k)).
    { rewrite negb_true_iff.
      rewrite <- (gen_all_forall gen_inner (fun a => inner_moves a = false) dataless (e_variants def) (x_inner x) inner_moves_gen (xp_inner _ _ Xp)).
      split.
      - intros H a Ha. destruct (inner_moves a) eqn:Ea; [|reflexivity].
        assert (existsb inner_moves (x_inner x) = true) by (apply existsb_exists; eauto). congruence.
      - intros H. destruct (existsb inner_moves (x_inner x)) eqn:Ee; [|reflexivity].
        apply existsb_exists in Ee as (a & Ha & Ea). rewrite (H a Ha) in Ea. discriminate. }
    assert (B : box_has (ds ++ he) TCopy = true <-> In TCopy (ds ++ he)).
    { rewrite C53_box. split; [tauto|]. intros H. repeat split; auto; try discriminate. intros [K|K]; discriminate. }
    destruct (has TDrop (ds ++ hs)) eqn:Eh.
    - apply has_in in Eh. rewrite orb_true_iff, Q, B. tauto.
    - apply has_not in Eh. tauto. }
  rewrite M1, M2.
  assert (B : plain_enum_ok fh def ds he ->
     ((forall t, In t ds -> derivable t = true /\ box_has (ds ++ he) t = true) <->
      ~ In THash ds /\ (In TDebug ds -> In TClone (ds ++ he)))).
  { intros P. split.
    - intros H. split.
      + intros K. apply H in K as [_ K]. apply C53_box in K. tauto.
      + intros K. apply H in K as [_ K]. apply C53_box in K. tauto.
    - intros [H1 H2] t Ht. pose proof (pe_derivable _ _ _ _ P t Ht) as Hd. split.
      + cbn in Hd. repeat (destruct Hd as [<-|Hd]; [reflexivity|]). contradiction.
      + apply C53_box. split; [apply in_or_app; auto|]. cbn in Hd.
        repeat (destruct Hd as [<-|Hd]; [repeat split; try discriminate; try contradiction; intros [K|K]; try discriminate; auto|]).
        contradiction. }
  assert (C : box_has (ds ++ he) TCopy = true <-> In TCopy (ds ++ he)).
  { rewrite C53_box. split; [tauto|]. intros H. repeat split; auto; try discriminate. intros [K|K]; discriminate. }
  split.
  - intros ((P & H1 & H2 & H3 & H4) & H5 & H6). rewrite (B P) in H2. rewrite (D P) in H4, H5, H6. rewrite C in H4. tauto.
  - intros (P & H1 & H2 & H3 & H4 & H5 & H6 & H7). rewrite (B P), !(D P), C. tauto.
Qed.

(** Nothing but derives. *)
Theorem C53_derives fh def x ds : expand def = Some x ->
  (impls_compile fh x (Tdef ds [] []) = true <->
   NoDup ds /\ closed ds /\
   (forall t, In t ds -> In t [TClone; TCopy; TDebug; TPartialEq; TEq; TPartialOrd; TOrd]) /\
   (In TDebug ds -> In TClone ds) /\
   (forall t f, In t ds -> In f (all_types def) -> fh f t = true)).
Proof.
  intros Hx. rewrite (C53_accepted _ _ _ _ Hx). cbn [t_derives t_enum t_struct]. rewrite !app_nil_r. split.
  - intros ([P1 P2 P3 P4 P5 P6] & H1 & H2 & H3 & H4 & _). rewrite app_nil_r in P1, P4. repeat split; auto.
    intros t Ht. pose proof (P2 t Ht) as Q. cbn in Q |- *. repeat (destruct Q as [<-|Q]; [tauto|]). contradiction.
  - intros (H1 & H2 & H3 & H4 & H5). split.
    + constructor; rewrite ?app_nil_r; auto; try (intros []; fail); try tauto.
      intros t Ht. apply H3 in Ht. cbn in *. tauto.
    + split; [intros K; apply H3 in K; cbn in K; intuition discriminate|]. repeat split; auto; try (intros []; fail).
Qed.

(** A definition whose impls are accepted satisfies the rules about [Copy] and [Drop] that the other
    properties start from. *)
Theorem C53_def_ok fh def x d : expand def = Some x -> impls_compile fh x d = true ->
  (forall f, fh f TCopy = ty_copy f) ->
  e_copy def = has TCopy (t_derives d ++ t_enum d) -> e_drop def = has TDrop (t_derives d ++ t_enum d) ->
  (e_copy def = true \/ e_drop def = true -> Forall (fun t => ty_copy t = true) (all_types def)) /\
  (e_copy def = true -> e_drop def = false) /\
  (has TCopy (t_derives d ++ t_struct d) = true -> e_copy def = true).
Proof.
  intros Hx H Hf Ec Ed. apply (C53_accepted _ _ _ _ Hx) in H as ([P1 P2 P3 P4 P5 P6] & H1 & H2 & H3 & H4 & H5 & H6 & H7).
  assert (D : forall l, In TDrop (t_derives d ++ l) -> In TDrop l).
  { intros l H. apply in_app_or in H as [H|H]; [|exact H]. apply P2 in H. cbn in H. intuition discriminate. }
  rewrite Ec, Ed, !has_in, has_not. split; [|split].
  - intros H. apply Forall_forall. intros f Hin. rewrite <- Hf. destruct H as [H|H].
    + apply in_app_or in H as [H|H]; [apply P3|apply P5]; assumption.
    + apply H6; [apply D, H|exact Hin].
  - intros Hc Hd. apply P6. split; [exact Hc|apply D, Hd].
  - intros Hc. apply H5, Hc.
Qed.

(** ** Examples *)

(** [i32] and the like have everything here but [Drop]; [String] is not [Copy]; [f32] is not [Eq]. *)
Definition usual (f : rty) (t : trait) : bool :=
  match t with
  | TCopy => ty_copy f
  | TDrop => false
  | TEq | TOrd | THash => negb (String.eqb (ty_name f) "f32")
  | _ => true
  end.

Definition accepts (ds he hs : list trait) : bool := impls_compile usual item_x (Tdef ds he hs).

(** The derives of the documentation; [Debug] alone; [Debug] with a [Clone] written by hand for the
    enum; [Hash]; [Copy] although there is a [String]; a supertrait missing for the struct only. *)
Example C53_example : expand item = Some item_x /\
  accepts [TDebug; TClone; TPartialEq] [] [] = true /\
  accepts [TDebug] [] [] = false /\ enum_compiles usual item_x (Tdef [TDebug] [] []) = true /\
  accepts [TDebug] [TClone] [] = true /\
  accepts [TClone; TPartialEq; THash] [] [] = false /\ accepts [TClone; TPartialEq] [THash] [THash] = true /\
  accepts [TClone; TCopy] [] [] = false /\
  accepts [TEq] [TPartialEq] [] = false /\ accepts [TEq] [TPartialEq] [TPartialEq] = true /\
  accepts [TClone; TClone] [] [] = false /\ accepts [TClone] [TClone] [] = false /\
  accepts [TDefault] [] [] = false /\ accepts [] [TDrop] [] = false /\ accepts [] [] [TDrop] = false /\
  accepts [TPartialEq; TEq; TPartialOrd; TOrd; TClone; TDebug] [TDisplay] [TDisplay; TDefault] = true.
Proof. repeat split; vm_compute; reflexivity. Qed.

(** [Drop] on the struct: accepted without data, or if the enum is [Copy] and the struct is not; [Drop]
    on the enum: accepted with [Copy] fields. *)
Definition flags : edef := Edef "Box" "Flags" 1 false false [("On", KUnit); ("Off", KTuple [])]%string.
Definition digits2 : edef := Edef "Box" "Digits" 1 false true [("One", KTuple [ty_u8])]%string.
Definition accepts_for (def : edef) (ds he hs : list trait) : option bool :=
  option_map (fun x => impls_compile usual x (Tdef ds he hs)) (expand def).

Example C53_drop_example :
  accepts_for flags [] [] [TDrop] = Some true /\ accepts_for flags [TClone; TCopy] [] [TDrop] = Some false /\
  accepts_for digits2 [] [TClone; TCopy] [TDrop] = Some true /\ accepts_for digits2 [TClone; TCopy] [] [TDrop] = Some false /\
  accepts_for digits2 [] [] [TDrop] = Some false /\
  accepts_for digits2 [] [TDrop] [] = Some true /\ accepts_for digits2 [TClone; TCopy] [TDrop] [] = Some false /\
  accepts_for digits2 [TClone; TCopy] [] [] = Some true /\ e_copy digits2 = has TCopy ([TClone; TCopy] ++ []) /\
  (forall f, usual f TCopy = ty_copy f).
Proof. repeat split; vm_compute; reflexivity. Qed.

(** ** Instances: each theorem applied to a concrete case that meets its hypotheses *)

Example C53_box_example : box_has [TDebug; TPartialEq] TDebug = false /\ box_has [TDebug; TClone] TDebug = true.
Proof.
  split.
  - apply not_true_is_false. intros H. apply C53_box in H. destruct H as (_ & _ & _ & _ & H).
    destruct (H (or_introl eq_refl)) as [Q|[Q|[]]]; discriminate Q.
  - apply C53_box. repeat split; try discriminate; cbn; tauto.
Qed.

Example C53_coherent_example : box_has [TPartialEq; TEq; TPartialOrd; TOrd] TPartialOrd = true.
Proof.
  apply (C53_coherent _ TOrd); [|reflexivity|cbn; tauto].
  intros t s H. cbn in H. destruct H as [<-|[<-|[<-|[<-|[]]]]]; cbn; tauto.
Qed.

(** The item with the derives of the documentation meets each condition; [Debug] alone does not. *)
Example C53_accepted_example :
  plain_enum_ok usual item [TDebug; TClone; TPartialEq] [] /\
  ~ (plain_enum_ok usual item [TDebug] [] /\ ~ In THash [TDebug] /\ (In TDebug [TDebug] -> In TClone ([TDebug] ++ [])) /\
     NoDup ([TDebug] ++ []) /\ closed ([TDebug] ++ []) /\ (In TCopy ([TDebug] ++ []) -> In TCopy ([TDebug] ++ []) /\ ~ In TDrop []) /\
     (In TDrop [] -> forall f, In f (all_types item) -> usual f TCopy = true) /\
     (In TDrop [] -> In TCopy ([TDebug] ++ []) \/ forall v k, In (v, k) (e_variants item) -> dataless k)).
Proof.
  destruct C53_example as (X & A & B & _). split.
  - apply (C53_accepted usual item item_x (Tdef [TDebug; TClone; TPartialEq] [] []) X) in A. apply A.
  - intros H. apply (C53_accepted usual item item_x (Tdef [TDebug] [] []) X) in H. unfold accepts in B. rewrite B in H. discriminate H.
Qed.

Example C53_derives_example : impls_compile usual item_x (Tdef [TDebug; TClone; TPartialEq] [] []) = true.
Proof.
  apply (C53_derives usual item item_x [TDebug; TClone; TPartialEq] eq_refl).
  split; [repeat constructor; cbn; intuition discriminate|].
  split; [intros t s H; cbn in H; destruct H as [<-|[<-|[<-|[]]]]; cbn; tauto|].
  split; [cbn; intuition congruence|]. split; [cbn; tauto|].
  intros t f H _. cbn in H. destruct H as [<-|[<-|[<-|[]]]]; reflexivity.
Qed.

Example C53_def_ok_example : exists x, expand digits2 = Some x /\ e_copy digits2 = true /\
  Forall (fun t => ty_copy t = true) (all_types digits2).
Proof.
  destruct (expand digits2) as [x|] eqn:X; [|vm_compute in X; discriminate X]. exists x. split; [reflexivity|]. split; [reflexivity|].
  destruct C53_drop_example as (_ & _ & _ & _ & _ & _ & _ & A & C & F).
  unfold accepts_for in A. rewrite X in A. cbn [option_map] in A. injection A as A.
  destruct (C53_def_ok usual digits2 x (Tdef [TClone; TCopy] [] []) X A F C eq_refl) as (P & _). apply P. left. reflexivity.
Qed.

Print Assumptions C53_box.
Print Assumptions C53_coherent.
Print Assumptions C53_accepted.
Print Assumptions C53_derives.
Print Assumptions C53_def_ok.
