(** Facts about the names in the generated code. *)
From Coq Require Import Arith NArith String Bool List Lia.
From Verif Require Import Words Config Spec Pointer Mem Box Arms Macro SpecMem SpecMacro MacroFacts Names SpecNames.
Import ListNotations.
Local Open Scope string_scope.

(** ** Resolution of a type is resolution of the names in it *)

Section WtyInd.
Variable P : wty -> Prop.
Hypothesis HT : forall n, P (WType n).
Hypothesis HC : forall n, P (WConst n).
Hypothesis HN : forall f args, Forall P args -> P (WNode f args).
Fixpoint wty_ind2 (t : wty) : P t :=
  match t with
  | WType n => HT n
  | WConst n => HC n
  | WNode f args =>
      HN f args ((fix go l : Forall P l :=
                    match l with [] => Forall_nil P | a :: r => Forall_cons a (wty_ind2 a) (go r) end) args)
  end.
End WtyInd.

Section Facts.
Variable user : string -> bool.
Variable written : rty -> wty.
Variables container enum : string.
Hypothesis HS : enum <> "Self" /\ container <> "Self".

Notation ftype := (find_type user).
Notation fvalue := (find_value user).
Notation ok := (use_ok user written container enum).
Notation home := (in_enum container enum).

Lemma resolve_same s s' t : resolve user s t = resolve user s' t <->
  (forall n, mentions (WType n) t -> ftype n s = ftype n s') /\
  (forall n, mentions (WConst n) t -> fvalue n s = fvalue n s').
Proof.
  induction t as [n|n|f args IH] using wty_ind2; cbn [resolve].
  - split.
    + intros E. split; intros m Hm; inversion Hm; subst. congruence.
    + intros [E _]. rewrite E; constructor.
  - split.
    + intros E. split; intros m Hm; inversion Hm; subst. congruence.
    + intros [_ E]. rewrite E; constructor.
  - rewrite Forall_forall in IH. split.
    + intros E. assert (E2 : map (resolve user s) args = map (resolve user s') args) by congruence.
      assert (Ha : forall a, In a args -> resolve user s a = resolve user s' a).
      { clear - E2. induction args as [|b r IHr]; cbn in *; [tauto|]. intros a [<-|H]; [congruence|].
        apply IHr; [congruence|exact H]. }
      split; intros m Hm; inversion Hm; subst; apply (IH _ H1); auto.
    + intros [A B]. f_equal. apply map_ext_in. intros a Ha. apply IH; [exact Ha|].
      split; intros n Hn; [apply A|apply B]; econstructor; eauto.
Qed.

(** [s] differs from the inside of the enum in the type names [hT] and the value names [hC]. *)
Record hides (s : list rib) (hT hC : list string) : Prop := {
  h_out : forall n, ~ In n hT -> ftype n s = ftype n home;
  h_in : forall n, In n hT -> ftype n s <> ftype n home /\ forall m, ftype n s <> MStd m;
  hc_out : forall n, ~ In n hC -> fvalue n s = fvalue n home;
  hc_in : forall n, In n hC -> fvalue n s <> fvalue n home
}.

Lemma home_type n : ftype n home =
  if String.eqb n "Self" then MEnum else if String.eqb n enum then MEnum else
  if String.eqb n container then MContainer else if user n then MUser n else MStd n.
Proof.
  unfold find_type, in_enum, self_is, module. cbn [find_name rib_types assoc].
  destruct (n =? "Self"), (n =? enum), (n =? container); reflexivity.
Qed.
Lemma home_value n : fvalue n home = if user n then MUser n else MStd n.
Proof. reflexivity. Qed.

Lemma hides_field s hT hC t : hides s hT hC ->
  (ok (UField s t) <-> (forall n, In n hT -> ~ mentions (WType n) (written t)) /\
                       (forall n, In n hC -> ~ mentions (WConst n) (written t))).
Proof.
  intros H. cbn [use_ok]. rewrite resolve_same. split.
  - intros [A B]. split; intros n Hn Hm.
    + apply (proj1 (h_in _ _ _ H n Hn)), A, Hm.
    + apply (hc_in _ _ _ H n Hn), B, Hm.
  - intros [A B]. split; intros n Hn.
    + apply (h_out _ _ _ H). intros F. apply (A n F Hn).
    + apply (hc_out _ _ _ H). intros F. apply (B n F Hn).
Qed.

Lemma hides_enum s hT hC : hides s hT hC -> (ok (the_enum enum s) <-> ~ In enum hT).
Proof.
  intros H. cbn [use_ok the_enum].
  assert (E : ftype enum home = MEnum).
  { rewrite home_type, (proj2 (String.eqb_neq _ _) (proj1 HS)), String.eqb_refl. reflexivity. }
  split.
  - intros A F. apply (h_in _ _ _ H) in F. rewrite E in F. tauto.
  - intros A. rewrite (h_out _ _ _ H _ A). exact E.
Qed.

Lemma hides_std n s hT hC : n <> "Self" -> hides s hT hC ->
  (ok (std n s) <-> ~ In n hT /\ untouched user container enum n).
Proof.
  intros Hn H. cbn [use_ok std].
  assert (E : ftype n home = MStd n <-> untouched user container enum n).
  { rewrite home_type, (proj2 (String.eqb_neq _ _) Hn). unfold untouched.
    destruct (String.eqb_spec n enum), (String.eqb_spec n container), (user n); split; intros F;
      try discriminate F; try (exfalso; intuition congruence); auto. }
  rewrite <- E. split.
  - intros A. destruct (in_dec string_dec n hT) as [F|F].
    + exfalso. apply (proj2 (h_in _ _ _ H _ F) _ A).
    + split; [exact F|]. rewrite <- A. symmetry. apply (h_out _ _ _ H _ F).
  - intros [A B]. rewrite (h_out _ _ _ H _ A). exact B.
Qed.

(** The scopes of the generated code. *)

Definition private (m : meant) : Prop :=
  match m with MLocal _ | MCounter | MTotal | MParam | MTrait => True | _ => False end.

Lemma assoc_map {A} n (l : list (string * A)) :
  match assoc n l with Some a => In (n, a) l | None => ~ In n (map fst l) end.
Proof.
  induction l as [|[k a] l IH]; cbn [assoc map fst In]; [tauto|].
  destruct (String.eqb_spec n k) as [->|D]; [auto|]. destruct (assoc n l); [auto|]. intuition congruence.
Qed.

Lemma private_home m n : private m -> m <> ftype n home /\ m <> fvalue n home /\ forall k, m <> MStd k.
Proof.
  intros H. rewrite home_type, home_value.
  repeat split; intros E; destruct m; cbn in H; try contradiction;
    destruct (n =? "Self"), (n =? enum), (n =? container), (user n); discriminate.
Qed.

Lemma hides_push s hT hC lt lv : hides s hT hC ->
  Forall (fun nm => private (snd nm)) lt -> Forall (fun nm => private (snd nm)) lv ->
  hides (Rib lt lv :: s) (map fst lt ++ hT) (map fst lv ++ hC).
Proof.
  intros H Ht Hv. rewrite Forall_forall in Ht, Hv.
  constructor; intros n Hn; rewrite in_app_iff in Hn; unfold find_type, find_value;
    cbn [find_name rib_types rib_values].
  - pose proof (assoc_map n lt) as A. destruct (assoc n lt) as [m|].
    + exfalso. apply Hn. left. apply (in_map fst) in A. exact A.
    + apply (h_out _ _ _ H). tauto.
  - pose proof (assoc_map n lt) as A. destruct (assoc n lt) as [m|].
    + apply Ht in A. apply (private_home _ n) in A. intuition.
    + apply (h_in _ _ _ H). tauto.
  - pose proof (assoc_map n lv) as A. destruct (assoc n lv) as [m|].
    + exfalso. apply Hn. left. apply (in_map fst) in A. exact A.
    + apply (hc_out _ _ _ H). tauto.
  - pose proof (assoc_map n lv) as A. destruct (assoc n lv) as [m|].
    + apply Hv in A. apply (private_home _ n) in A. intuition.
    + apply (hc_in _ _ _ H). tauto.
Qed.

Lemma home_hides : hides home [] [].
Proof. constructor; cbn [In]; tauto. Qed.

Lemma container_hides : hides (in_container container enum) ["Self"] [].
Proof.
  constructor; intros n Hn; cbn [In] in Hn; try tauto; try reflexivity.
  - unfold find_type, in_container, in_enum, self_is. cbn [find_name rib_types assoc].
    destruct (String.eqb_spec n "Self"); [intuition congruence|reflexivity].
  - destruct Hn as [<-|[]]. split; [discriminate|]. intros m. discriminate.
Qed.

Ltac push := match goal with |- hides (?r :: ?s) _ _ => apply (hides_push s _ _ (rib_types r) (rib_values r)) end;
  [|repeat constructor|repeat constructor].

Lemma into_inner_hides : hides (in_into_inner container enum) [counter_name; "Self"] [].
Proof. unfold in_into_inner, counter_rib. push. apply container_hides. Qed.
Lemma in_from_hides : hides (in_from container enum) ["TaggableInner"; "Self"] [].
Proof. unfold in_from. push. apply container_hides. Qed.
Lemma into_tagged_hides : hides (in_into_tagged container enum) [counter_name] [].
Proof. unfold in_into_tagged, counter_rib. push. apply home_hides. Qed.
Lemma from_tagged_hides : hides (in_from_tagged container enum) [counter_name] [total_name].
Proof. unfold in_from_tagged, total_rib. push. apply home_hides. Qed.
Lemma signature_hides : hides (in_ref_signature container enum) ["F"] [].
Proof. unfold in_ref_signature. push. apply home_hides. Qed.
Lemma ref_hides : hides (in_ref container enum) [counter_name; "F"] [total_name].
Proof. unfold in_ref, total_rib. push. apply signature_hides. Qed.

Lemma arm_hides v (b : bool) s hT hC : hides s hT hC -> hides (in_arm v b s) (v :: hT) ((if b then [v] else []) ++ hC).
Proof.
  intros H. unfold in_arm. destruct b.
  - apply (hides_push s hT hC [(v, MLocal v)] [(v, MLocal v)] H); repeat constructor.
  - apply (hides_push s hT hC [(v, MLocal v)] [] H); repeat constructor.
Qed.
Lemma struct_hides v (b : bool) s hT hC : hides s hT hC ->
  hides (in_struct v b s) ("Self" :: v :: hT) ((if b then [v] else []) ++ hC).
Proof.
  intros H. unfold in_struct, self_is.
  apply (hides_push (in_arm v b s) _ _ [("Self", MLocal v)] [] (arm_hides v b s _ _ H)); repeat constructor.
Qed.

(** ** Lists of uses *)

Definition fine (us : list use) : Prop := Forall ok us.

Lemma fine_app a b : fine (a ++ b) <-> fine a /\ fine b.
Proof. apply Forall_app. Qed.
Lemma fine_cons u us : fine (u :: us) <-> ok u /\ fine us.
Proof. apply Forall_cons_iff. Qed.
Lemma fine_nil : fine [] <-> True.
Proof. split; [auto|constructor]. Qed.

Lemma fine_fields s hT hC tys : hides s hT hC ->
  (fine (map (UField s) tys) <->
   (forall t n, In t tys -> In n hT -> ~ mentions (WType n) (written t)) /\
   (forall t n, In t tys -> In n hC -> ~ mentions (WConst n) (written t))).
Proof.
  intros H. unfold fine. rewrite Forall_map, Forall_forall. split.
  - intros A. split; intros t n Ht Hn; apply A in Ht; apply (hides_field _ _ _ _ H) in Ht; apply Ht, Hn.
  - intros [A B] t Ht. apply (hides_field _ _ _ _ H). split; intros n; [apply A, Ht|apply B, Ht].
Qed.

Lemma fine_struct v b s hT hC tys : hides s hT hC ->
  (fine (struct_uses v b s tys) <->
   (forall t n, In t tys -> In n ("Self" :: v :: hT) -> ~ mentions (WType n) (written t)) /\
   (forall t n, In t tys -> In n ((if b then [v] else []) ++ hC) -> ~ mentions (WConst n) (written t))).
Proof.
  intros H. unfold struct_uses. rewrite fine_app, (fine_fields _ _ _ _ (struct_hides v b s _ _ H)).
  assert (E : ok (UName (in_arm v b s) v (MLocal v))).
  { cbn [use_ok]. unfold find_type, in_arm. cbn [find_name rib_types assoc]. rewrite String.eqb_refl. reflexivity. }
  rewrite fine_cons, fine_nil. tauto.
Qed.

(** Bodies of functions know the macro's enum. *)
Definition counts (s : list rib) : Prop := ftype counter_name s = MCounter.
Lemma counts_arm v b s : counts s -> (counts (in_arm v b s) <-> v <> counter_name).
Proof.
  unfold counts, find_type, in_arm. intros H. cbn [find_name rib_types assoc]. rewrite H.
  destruct (String.eqb_spec counter_name v); split; congruence.
Qed.

Lemma fine_tag s hT hC : hides s hT hC ->
  (fine (tag_uses s) <-> counts s /\ ~ In "u8" hT /\ untouched user container enum "u8").
Proof.
  intros H. unfold tag_uses. rewrite !fine_cons, fine_nil, (hides_std "u8" s hT hC) by (try exact H; discriminate).
  unfold counts. cbn [use_ok]. tauto.
Qed.

Lemma core_use s hT hC : hides s hT hC -> (ok (std "core" s) <-> ~ In "core" hT /\ untouched user container enum "core").
Proof. apply hides_std. discriminate. Qed.

(** ** One variant *)

Hypothesis HD : container <> enum.

Lemma from_use : ok (std "From" (module container enum)) <-> untouched user container enum "From".
Proof.
  pose proof (hides_std "From" home [] [] ltac:(discriminate) home_hides) as H. cbn [In use_ok std] in *.
  unfold find_type, in_enum, self_is in H. cbn [find_name rib_types assoc String.eqb] in H.
  change (String.eqb "From" "Self") with false in H. tauto.
Qed.
Lemma container_use : ok (UName (module container enum) container MContainer).
Proof.
  cbn [use_ok]. unfold find_type, module. cbn [find_name rib_types assoc].
  rewrite (proj2 (String.eqb_neq _ _) HD), String.eqb_refl. reflexivity.
Qed.

Lemma derive_fine f tys : (exists t v, f = FromLeaf t v /\ tys = [t]) \/ (exists v idx, f = FromTuple tys v idx) ->
  (fine (derive_uses container enum f) <->
   untouched user container enum "From" /\ enum <> "TaggableInner" /\
   forall t, In t tys -> ~ mentions (WType "Self") (written t)).
Proof.
  intros Hf.
  assert (E : fine (derive_uses container enum f) <->
    ok (std "From" (module container enum)) /\ ok (UName (module container enum) container MContainer) /\
    ok (the_enum enum (in_from container enum)) /\ fine (map (UField (in_container container enum)) tys)).
  { destruct Hf as [(t & v & -> & ->)|(v & idx & ->)]; unfold derive_uses; rewrite !fine_cons; cbn [map]; rewrite ?fine_cons; tauto. }
  rewrite E, from_use, (hides_enum _ _ _ in_from_hides), (fine_fields _ _ _ _ container_hides). cbn [In].
  pose proof container_use. split.
  - intros (A & _ & B & C & _). split; [exact A|]. split; [intros F; apply B; auto|].
    intros t Ht. apply C; auto.
  - intros (A & B & C). split; [exact A|]. split; [assumption|]. split; [|split].
    + intros [F|[F|[]]]; [auto|]. apply (proj1 HS). auto.
    + intros t n Ht [<-|[]]. auto.
    + intros t n Ht [].
Qed.

Lemma counts_bodies : counts (in_into_tagged container enum) /\ counts (in_into_inner container enum) /\
  counts (in_from_tagged container enum) /\ counts (in_ref container enum).
Proof. repeat split. Qed.

Definition variant_fine (v : string) (k : vkind) : Prop :=
  untouched user container enum "u8" /\ enum <> "F" /\ enum <> counter_name /\
  (is_unit k = false -> untouched user container enum "core") /\
  (is_tuple k = true -> untouched user container enum "From" /\ enum <> "TaggableInner") /\
  variant_free written enum v k.

Ltac parts := repeat match goal with |- _ /\ _ => split end.

Ltac use_field :=
  match goal with
  | Ht : In ?t _, Hm : mentions _ (written ?t), H : forall t n, In t _ -> In n _ -> ~ mentions _ _ |- False =>
      apply (H _ _ Ht) in Hm; [exact Hm|cbn [In app]; tauto]
  | Ht : In ?t _, Hm : mentions _ (written ?t), H : forall t, In t _ -> ~ mentions _ _ |- False => exact (H _ Ht Hm)
  end.

Ltac conclude :=
  match goal with
  | |- _ => assumption
  | |- forall t, In t _ -> ~ mentions _ _ =>
      let t := fresh "t" in let Ht := fresh "Ht" in let Hm := fresh "Hm" in intros t Ht Hm; solve [use_field]
  | |- forall t n, In t _ -> In n _ -> ~ mentions _ _ =>
      let t := fresh "t" in let n := fresh "n" in let Ht := fresh "Ht" in let Hn := fresh "Hn" in let Hm := fresh "Hm" in
      intros t n Ht Hn Hm; cbn [In app] in Hn; decompose [or] Hn; clear Hn; subst; try contradiction; solve [use_field]
  | |- ~ (_ \/ _) => solve [intuition (try congruence)]
  | |- _ => solve [unfold counter_name in *; cbn [In app] in *; intuition (try congruence)]
  | |- _ => solve [unfold counter_name in *; cbn [In app] in *; intros; first [discriminate | intuition (try congruence)]]
  end.

Lemma variant_uses v k a1 a2 a3 a4 fs :
  gen_into v k = Some a1 -> gen_inner v k = Some a2 -> gen_from v k = Some a3 -> gen_ref v k = Some a4 ->
  gen_from_impl v k = Some fs ->
  (fine (into_uses container enum a1) /\ fine (inner_uses container enum a2) /\
   fine (from_tagged_uses container enum a3) /\ fine (ref_uses container enum a4) /\
   fine (flat_map (derive_uses container enum) fs)) <-> variant_fine v k.
Proof.
  destruct counts_bodies as (K1 & K2 & K3 & K4). destruct HS as [HS1 _].
  pose proof into_tagged_hides as S1. pose proof into_inner_hides as S2.
  pose proof from_tagged_hides as S3. pose proof ref_hides as S4.
  destruct k as [|[|t1 [|t2 tys]]|ms]; cbn [gen_into gen_inner gen_from gen_ref gen_from_impl].
  - intros H1 H2 H3 H4 H5. injection H1 as <-. injection H2 as <-. injection H3 as <-. injection H4 as <-. injection H5 as <-.
    unfold into_uses, inner_uses, from_tagged_uses, ref_uses. cbn [ia_body ra_build ia_variant ra_variant flat_map].
    rewrite !fine_app, !fine_cons, ?fine_nil.
    rewrite (fine_tag _ _ _ S1), (fine_tag _ _ _ S2), (fine_tag _ _ _ S3), (fine_tag _ _ _ S4).
    rewrite (hides_enum _ _ _ S1), (hides_enum _ _ _ S2), (hides_enum _ _ _ S3), (hides_enum _ _ _ S4).
    unfold variant_fine. cbn [is_unit is_tuple]. split.
    + intros H. assert (variant_free written enum v KUnit) by (constructor; cbn [kind_types gets_struct In]; intros; try contradiction; discriminate).
      conclude.
    + intros H. conclude.
  - (* no fields *)
    intros H1 H2 H3 H4 H5. injection H1 as <-. injection H2 as <-. injection H3 as <-. injection H4 as <-.
    unfold expand_tuple in H5. destruct (find_arm _ _) as [idx|]; [|discriminate]. injection H5 as <-.
    cbn [flat_map]. rewrite fine_app, fine_nil.
    rewrite (derive_fine (FromTuple [] v idx) [] ltac:(eauto)).
    unfold into_uses, inner_uses, from_tagged_uses, ref_uses. cbn [ia_body ra_build ia_variant ra_variant].
    rewrite !fine_app, !fine_cons, ?fine_nil.
    rewrite (fine_tag _ _ _ S1), (fine_tag _ _ _ S2), (fine_tag _ _ _ S3), (fine_tag _ _ _ S4).
    rewrite (fine_struct v true _ _ _ _ S2), (fine_struct v true _ _ _ _ S4), (core_use _ _ _ (arm_hides v true _ _ _ S4)).
    rewrite (hides_enum _ _ _ (arm_hides v true _ _ _ S2)), (hides_enum _ _ _ (arm_hides v true _ _ _ S4)).
    rewrite (hides_enum _ _ _ S1), (hides_enum _ _ _ S3).
    unfold variant_fine. cbn [is_unit is_tuple]. split.
    + intros H. assert (variant_free written enum v (KTuple [])).
      { constructor; cbn [kind_types gets_struct is_tuple is_empty_tuple In]; intros; try contradiction; try discriminate. conclude. }
      conclude.
    + intros (A & B & C & D & E & F). destruct F as [_ _ F _ _ _]. cbn [gets_struct] in F.
      specialize (F eq_refl). specialize (D eq_refl). specialize (E eq_refl).
      parts; try conclude; cbn [In]; intros; contradiction.
  - (* one field *)
    intros H1 H2 H3 H4 H5. injection H1 as <-. injection H2 as <-. injection H3 as <-. injection H4 as <-. injection H5 as <-.
    cbn [flat_map]. rewrite fine_app, fine_nil.
    rewrite (derive_fine (FromLeaf t1 v) [t1] ltac:(eauto)).
    unfold into_uses, inner_uses, from_tagged_uses, ref_uses. cbn [ia_body ra_build ia_variant ra_variant].
    rewrite !fine_app, !fine_cons, ?fine_nil.
    rewrite (fine_tag _ _ _ S1), (fine_tag _ _ _ S2), (fine_tag _ _ _ S3), (fine_tag _ _ _ S4).
    rewrite (hides_enum _ _ _ S1), (hides_enum _ _ _ S2), (hides_enum _ _ _ S3), (hides_enum _ _ _ S4).
    rewrite (core_use _ _ _ S4).
    rewrite (hides_field _ _ _ t1 S1), (hides_field _ _ _ t1 S2), (hides_field _ _ _ t1 S3), (hides_field _ _ _ t1 S4).
    unfold variant_fine. cbn [is_unit is_tuple]. split.
    + intros H. assert (variant_free written enum v (KTuple [t1])).
      { constructor; cbn [kind_types gets_struct]; try discriminate.
        - intros t n [<-|[]] Hn. decompose [and] H. cbn [In] in Hn. unfold counter_name in *. 
          decompose [or] Hn; subst; cbn [In] in *; auto. 
        - intros t [<-|[]]. decompose [and] H. unfold total_name in *. cbn [In] in *. auto. }
      decompose [and] H. clear H.
      parts; try conclude; try assumption.
    + intros (A & B & C & D & E & F). destruct F as [F1 F2 _ _ _ _]. cbn [kind_types] in *.
      specialize (D eq_refl). specialize (E eq_refl).
      parts; try conclude; intros n Hn; cbn [In] in Hn; decompose [or] Hn; subst; try contradiction;
        try (apply F1; cbn [In]; tauto); try (apply F2; cbn [In]; tauto).
  - (* several fields *)
    set (l := t1 :: t2 :: tys) in *. intros H1 H2 H3 H4 H5.
    destruct (find_arm _ expand_tuple_arm_arms) as [[pat args]|]; [|discriminate]. injection H1 as <-.
    destruct (expand_tuple l) as [idx|]; [|discriminate]. injection H2 as <-. injection H3 as <-. injection H4 as <-. injection H5 as <-.
    cbn [flat_map]. rewrite fine_app, fine_nil.
    rewrite (derive_fine (FromTuple l v idx) l ltac:(eauto)).
    unfold into_uses, inner_uses, from_tagged_uses, ref_uses. cbn [ia_body ra_build ia_variant ra_variant].
    rewrite !fine_app, !fine_cons, ?fine_app, ?fine_nil.
    rewrite (fine_tag _ _ _ (arm_hides v true _ _ _ S1)), (fine_tag _ _ _ S2), (fine_tag _ _ _ S3), (fine_tag _ _ _ S4).
    rewrite (counts_arm v true _ K1).
    rewrite (fine_struct v true _ _ _ _ S1), (fine_struct v true _ _ _ _ S2), (fine_struct v true _ _ _ _ S4).
    rewrite (fine_fields _ _ _ _ S3), (core_use _ _ _ (arm_hides v true _ _ _ S4)).
    rewrite (hides_enum _ _ _ (arm_hides v true _ _ _ S2)), (hides_enum _ _ _ (arm_hides v true _ _ _ S4)).
    rewrite (hides_enum _ _ _ S1), (hides_enum _ _ _ S3).
    assert (G1 : gets_struct (KTuple l) = true) by reflexivity. assert (G2 : is_empty_tuple (KTuple l) = false) by reflexivity.
    unfold variant_fine. cbn [is_unit is_tuple]. clearbody l. split.
    + intros H. decompose [and] H. clear H. unfold counter_name, total_name in *. parts; try conclude.
      constructor; cbn [kind_types is_tuple]; try conclude; intros _; try conclude; intros _; conclude.
    + intros (A & B & C & D & E & F). destruct F as [F1 F2 F3 F4 F5 F6]. cbn [kind_types is_tuple] in *.
      specialize (D eq_refl). specialize (E eq_refl). specialize (F3 G1). specialize (F4 G1). specialize (F5 G1 eq_refl).
      specialize (F6 G1 G2). unfold counter_name, total_name in *.
      parts; try conclude.
  - (* named fields *)
    set (l := map snd ms). intros H1 H2 H3 H4 H5.
    injection H1 as <-. injection H2 as <-. injection H3 as <-. injection H4 as <-. injection H5 as <-.
    unfold into_uses, inner_uses, from_tagged_uses, ref_uses. cbn [ia_body ra_build ia_variant ra_variant flat_map].
    rewrite !fine_app, !fine_cons, ?fine_app, ?fine_cons, ?fine_nil. fold l.
    rewrite (fine_tag _ _ _ (arm_hides v false _ _ _ S1)), (fine_tag _ _ _ S2), (fine_tag _ _ _ S3), (fine_tag _ _ _ S4).
    rewrite (counts_arm v false _ K1).
    rewrite (fine_struct v false _ _ _ _ S1), (fine_struct v false _ _ _ _ S2), (fine_struct v false _ _ _ _ S3),
      (fine_struct v false _ _ _ _ S4).
    rewrite (core_use _ _ _ (arm_hides v false _ _ _ S4)).
    rewrite (hides_enum _ _ _ (arm_hides v false _ _ _ S1)), (hides_enum _ _ _ (arm_hides v false _ _ _ S2)),
      (hides_enum _ _ _ (arm_hides v false _ _ _ S3)), (hides_enum _ _ _ (arm_hides v false _ _ _ S4)).
    rewrite (hides_enum _ _ _ S1).
    assert (El : kind_types (KStruct ms) = l) by reflexivity.
    unfold variant_fine. cbn [is_unit is_tuple]. clearbody l. split.
    + intros H. decompose [and] H. clear H. unfold counter_name, total_name in *. parts; try conclude.
      constructor; rewrite ?El; cbn [is_tuple gets_struct is_empty_tuple]; try conclude; intros _; try conclude;
        intros _; conclude.
    + intros (A & B & C & D & E & F). destruct F as [F1 F2 F3 F4 _ F6]. rewrite El in *. cbn [is_tuple gets_struct is_empty_tuple] in *.
      specialize (D eq_refl). specialize (F3 eq_refl). specialize (F4 eq_refl).
      specialize (F6 eq_refl eq_refl). unfold counter_name, total_name in *.
      parts; try conclude.
Qed.

(** ** The whole definition *)

Lemma fine_flat_map {A B} (g : string -> vkind -> option A) (f : A -> list B) (P : B -> Prop) vs : forall l,
  gen_all g vs = Some l ->
  (Forall P (flat_map f l) <-> forall v k a, In (v, k) vs -> g v k = Some a -> Forall P (f a)).
Proof.
  induction vs as [|[v k] vs IH]; cbn [gen_all]; intros l.
  - intros E. injection E as <-. cbn. split; [intros _ v k a []|constructor].
  - destruct (g v k) as [a|] eqn:Ga; [|discriminate]. destruct (gen_all g vs) as [r|]; [|discriminate].
    intros E. injection E as <-. cbn [flat_map]. rewrite Forall_app, (IH r eq_refl). cbn [In]. split.
    + intros [H1 H2] v' k' a' [H|H] G; [injection H as <- <-; congruence|]. eapply H2; eauto.
    + intros H. split; [apply (H v k a); auto|]. intros v' k' a' H' G. apply (H v' k' a'); auto.
Qed.

Lemma fixed_fine : fine (fixed_uses container enum) <->
  untouched user container enum "From" /\ untouched user container enum "FnOnce" /\
  untouched user container enum "usize" /\ enum <> "F".
Proof.
  unfold fixed_uses. rewrite !fine_cons, fine_nil, from_use.
  rewrite (hides_enum _ _ _ container_hides), (hides_enum _ _ _ home_hides), (hides_enum _ _ _ signature_hides).
  rewrite (hides_std "usize" _ _ _ ltac:(discriminate) from_tagged_hides).
  rewrite (hides_std "usize" _ _ _ ltac:(discriminate) ref_hides).
  rewrite (hides_std "FnOnce" _ _ _ ltac:(discriminate) signature_hides).
  pose proof container_use as C.
  assert (M : ok (the_enum enum (module container enum))).
  { cbn [use_ok the_enum]. unfold find_type, module. cbn [find_name rib_types assoc]. rewrite String.eqb_refl. reflexivity. }
  assert (P : ok (UName (in_ref_signature container enum) "F" MParam)) by reflexivity.
  destruct HS as [HS1 _]. cbn [In]. split.
  - intros H. decompose [and] H. parts; try assumption. intuition congruence.
  - intros (A & B & D & F). parts; auto; unfold counter_name; intuition congruence.
Qed.

Lemma accepted_iff def x : expand def = Some x -> 
  (fine (all_uses container enum x) <-> names_free user written container enum (e_variants def)).
Proof.
  intros Hx. apply expand_inv in Hx. destruct (xp_froms _ _ Hx) as (impls & Gi & Ei).
  assert (Ef : fine (flat_map (derive_uses container enum) (x_froms x)) <->
               forall v k fs, In (v, k) (e_variants def) -> gen_from_impl v k = Some fs ->
               fine (flat_map (derive_uses container enum) fs)).
  { rewrite Ei. rewrite <- (fine_flat_map _ (flat_map (derive_uses container enum)) ok _ _ Gi).
    unfold fine. clear. induction impls as [|a r IH]; cbn [concat flat_map]; [reflexivity|].
    rewrite flat_map_app, !Forall_app, IH. reflexivity. }
  unfold all_uses. rewrite !fine_app, fixed_fine, Ef. unfold fine.
  rewrite (fine_flat_map _ _ _ _ _ (xp_into _ _ Hx)), (fine_flat_map _ _ _ _ _ (xp_inner _ _ Hx)),
    (fine_flat_map _ _ _ _ _ (xp_from _ _ Hx)), (fine_flat_map _ _ _ _ _ (xp_ref _ _ Hx)).
  assert (Some5 : forall v k, In (v, k) (e_variants def) -> exists a1 a2 a3 a4 fs,
    gen_into v k = Some a1 /\ gen_inner v k = Some a2 /\ gen_from v k = Some a3 /\ gen_ref v k = Some a4 /\
    gen_from_impl v k = Some fs).
  { intros v k Hin.
    pose proof (proj1 (gen_all_some gen_into _) (ex_intro _ _ (xp_into _ _ Hx)) v k Hin) as G1.
    pose proof (proj1 (gen_all_some gen_inner _) (ex_intro _ _ (xp_inner _ _ Hx)) v k Hin) as G2.
    pose proof (proj1 (gen_all_some gen_from _) (ex_intro _ _ (xp_from _ _ Hx)) v k Hin) as G3.
    pose proof (proj1 (gen_all_some gen_ref _) (ex_intro _ _ (xp_ref _ _ Hx)) v k Hin) as G4.
    pose proof (proj1 (gen_all_some gen_from_impl _) (ex_intro _ _ Gi) v k Hin) as G5.
    destruct (gen_into v k), (gen_inner v k), (gen_from v k), (gen_ref v k), (gen_from_impl v k); try congruence.
    do 5 eexists. eauto. }
  split.
  - intros ((H1 & H2 & H3 & H4) & I1 & I2 & I3 & I4 & I5).
    assert (V : forall v k, In (v, k) (e_variants def) -> variant_fine v k).
    { intros v k Hin. destruct (Some5 v k Hin) as (a1 & a2 & a3 & a4 & fs & G1 & G2 & G3 & G4 & G5).
      apply (variant_uses v k a1 a2 a3 a4 fs); auto. parts; unfold fine; eauto. }
    assert (V0 : exists v k, In (v, k) (e_variants def)).
    { pose proof (xp_some _ _ Hx) as N. destruct (e_variants def) as [|[v k] r]; [contradiction|]. exists v, k. cbn. auto. }
    destruct V0 as (v0 & k0 & Hin0). pose proof (V _ _ Hin0) as (U & _ & Ec & _).
    constructor.
    + exact HD.
    + intros n Hn. cbn [In] in Hn. decompose [or] Hn; subst; try assumption. contradiction.
    + intros Hc. apply existsb_exists in Hc as ([v k] & Hin & Hk). apply negb_true_iff in Hk.
      pose proof (V _ _ Hin) as (_ & _ & _ & C & _). exact (C Hk).
    + auto.
    + intros Hc. apply existsb_exists in Hc as ([v k] & Hin & Hk).
      pose proof (V _ _ Hin) as (_ & _ & _ & _ & C & _). exact (proj2 (C Hk)).
    + intros v k Hin. apply (V _ _ Hin).
  - intros N. destruct N as [_ N1 N2 [N3 N3'] N4 N5].
    assert (V : forall v k, In (v, k) (e_variants def) -> variant_fine v k).
    { intros v k Hin. unfold variant_fine. parts; auto.
      - apply N1. cbn [In]. tauto.
      - intros Hk. apply N2, existsb_exists. exists (v, k). cbn [snd]. rewrite Hk. auto.
      - intros Hk. split; [apply N1; cbn [In]; tauto|]. apply N4, existsb_exists. exists (v, k). auto. }
    split; [parts; auto; apply N1; cbn [In]; tauto|].
    assert (W : forall v k a1 a2 a3 a4 fs, In (v, k) (e_variants def) ->
      gen_into v k = Some a1 -> gen_inner v k = Some a2 -> gen_from v k = Some a3 -> gen_ref v k = Some a4 ->
      gen_from_impl v k = Some fs -> 
      fine (into_uses container enum a1) /\ fine (inner_uses container enum a2) /\
      fine (from_tagged_uses container enum a3) /\ fine (ref_uses container enum a4) /\
      fine (flat_map (derive_uses container enum) fs)).
    { intros. apply (variant_uses v k); auto. }
    parts; intros v k a Hin Ga; destruct (Some5 v k Hin) as (a1 & a2 & a3 & a4 & fs & G1 & G2 & G3 & G4 & G5);
      destruct (W v k a1 a2 a3 a4 fs Hin G1 G2 G3 G4 G5) as (W1 & W2 & W3 & W4 & W5);
      first [ replace a with a1 by congruence; exact W1 | replace a with a2 by congruence; exact W2
            | replace a with a3 by congruence; exact W3 | replace a with a4 by congruence; exact W4
            | replace a with fs by congruence; exact W5 ].
Qed.

End Facts.
