(** What [tagged_box!] does with a token list: C32, C44, C45. *)
From Coq Require Import Arith NArith String Bool List Lia.
From Verif Require Import Words Config Pointer Mem Box Bump Arms Macro SpecMacro MacroFacts Props_Macro Tokens SpecTokens TokensFacts.
Import ListNotations.

(** ** C32: All generated functions read the definition alike *)

(** Tuple variants that do not have exactly one field. *)
Definition other_tuple (vk : string * vkind) : bool :=
  match snd vk with KTuple tys => negb (Nat.eqb (length tys) 1) | _ => false end.
Definition other_tuples (vs : list (string * vkind)) : nat := length (filter other_tuple vs).

Lemma extra_cost vs : total_cost extra vs = length vs + other_tuples vs.
Proof.
  unfold other_tuples. induction vs as [|[v k] vs IH]; [reflexivity|]. cbn [total_cost filter]. unfold other_tuple at 1. cbn [snd].
  destruct k as [|[|? [|? ?]]|]; cbn; cbn in IH; lia.
Qed.

Lemma counter_inv parse n : parser_ok parse -> forall fin ts l, counter_enum parse n (marked fin ts) = Done l ->
  exists vs, variant_list parse ts vs.
Proof.
  intros Hp. induction n as [|n IH]; intros fin ts l H; [discriminate|].
  pose proof (step_variant_list parse Hp ts) as S. destruct (step parse ts) as [v k rest| | |] eqn:E.
  - rewrite counter_marked, E in H. apply IH in H as (vs & L). eauto.
  - eauto.
  - rewrite counter_loops in H by assumption. discriminate.
  - rewrite counter_marked, E in H. discriminate.
Qed.

Lemma variant_list_no_mark parse ts vs : variant_list parse ts vs -> no_mark ts.
Proof. intros H. inversion H; exact I. Qed.

Section Macro.
Variable parse : list tree -> ty_parse.
Hypothesis Hp : parser_ok parse.

Lemma parts n ts vs : variant_list parse ts vs -> length vs + other_tuples vs + 2 <= n ->
  counter_enum parse n ts = Done (map fst vs) /\
  boxed_into_inner_m parse n ts = emit (gen_all gen_inner vs) Done /\
  derive_from parse n ts = emit (gen_all gen_from_impl vs) (fun l => Done (concat l)) /\
  make_enum parse n ts = Done vs /\
  into_box parse n ts = emit (gen_all gen_into vs) Done /\
  count_variants parse n ts = Done (N.of_nat (length vs)) /\
  from_tagged parse n ts = emit (gen_all gen_from vs) Done /\
  ref_from parse n ts = emit (gen_all gen_ref vs) Done.
Proof.
  intros L Hn. destruct n as [|n]; [lia|]. pose proof (variant_list_no_mark _ _ _ L) as NM. repeat split.
  - rewrite counter_unmarked by auto using no_mark_inner, no_mark_error.
    rewrite (counter_done parse Hp vs n [] []) by (first [assumption|reflexivity|lia]). reflexivity.
  - unfold boxed_into_inner_m. rewrite (collect_done parse Hp gen_inner free _ (inner_S parse Hp) vs) by (first [assumption|rewrite free_cost; lia]). reflexivity.
  - unfold derive_from. rewrite (derive_done parse Hp vs) by (first [assumption|lia]). reflexivity.
  - unfold make_enum. rewrite (collect_done parse Hp (fun v k => Some (v, k)) free _ (make_enum_S parse) vs) by (first [assumption|rewrite free_cost; lia]).
    rewrite gen_all_self. reflexivity.
  - unfold into_box. rewrite (collect_done parse Hp gen_into extra _ (into_next parse Hp) vs) by (first [assumption|rewrite extra_cost; lia]). reflexivity.
  - rewrite count_unmarked by auto using no_mark_inner.
    rewrite (count_done parse Hp vs n [] []) by (first [assumption|reflexivity|lia]). reflexivity.
  - unfold from_tagged. rewrite (collect_done parse Hp gen_from free _ (from_S parse Hp) vs) by (first [assumption|rewrite free_cost; lia]). reflexivity.
  - unfold ref_from. rewrite (collect_done parse Hp gen_ref free _ (ref_S parse Hp) vs) by (first [assumption|rewrite free_cost; lia]). reflexivity.
Qed.

Lemma into_inv n ts l : into_box parse n ts = Done l ->
  exists vs, variant_list parse ts vs /\ length vs + other_tuples vs + 2 <= n.
Proof.
  destruct n as [|n]; [discriminate|]. unfold into_box. intros H.
  destruct (collect_inv parse Hp gen_into extra _ (fun _ _ => eq_refl) (into_next parse Hp) n _ _ _ H) as (vs & l' & L & C & _ & _).
  exists vs. split; [exact L|]. rewrite extra_cost in C. lia.
Qed.

Lemma variant_list_nonempty ts vs : variant_list parse ts vs -> ts <> [] -> vs <> [].
Proof. intros H Hn. inversion H; subst; [contradiction|discriminate]. Qed.

(** The macro's output for a token list: exactly that of [expand] for the definition the tokens
    spell, whenever they spell one and the nesting stays within the limit; nothing otherwise. *)
Theorem C32_macro limit container name align d c ts x :
  tagged_box_m parse limit container name align d c ts = Done x <->
  exists vs, variant_list parse ts vs /\ length vs + other_tuples vs + 3 <= limit /\
    expand (Edef container name align d c vs) = Some x.
Proof.
  split.
  - destruct limit as [|n]; [discriminate|]. cbn [tagged_box_m]. intros H.
    assert (Hne : ts <> []) by (destruct ts; [discriminate|congruence]).
    destruct ts as [|t0 ts0]; [contradiction|]. set (ts := t0 :: ts0) in *.
    destruct (counter_enum parse n ts) as [counter| | |] eqn:E1; try discriminate. cbn [and_then] in H.
    destruct (boxed_into_inner_m parse n ts) as [inner| | |] eqn:E2; try discriminate. cbn [and_then] in H.
    destruct (derive_from parse n ts) as [froms| | |] eqn:E3; try discriminate. cbn [and_then] in H.
    destruct (make_enum parse n ts) as [enum| | |] eqn:E4; try discriminate. cbn [and_then] in H.
    destruct (into_box parse n ts) as [into| | |] eqn:E5; try discriminate. cbn [and_then] in H.
    destruct (count_variants parse n ts) as [total| | |] eqn:E6; try discriminate. cbn [and_then] in H.
    destruct (from_tagged parse n ts) as [from| | |] eqn:E7; try discriminate. cbn [and_then] in H.
    destruct (ref_from parse n ts) as [ref| | |] eqn:E8; try discriminate. cbn [and_then] in H.
    destruct (into_inv _ _ _ E5) as (vs & L & C). exists vs. split; [exact L|]. split; [lia|].
    destruct (parts n ts vs L C) as (F1 & F2 & F3 & F4 & F5 & F6 & F7 & F8).
    pose proof (variant_list_nonempty _ _ L Hne) as Hv. clear L C.
    unfold expand. cbn [e_variants e_name e_align e_drop e_copy].
    destruct vs as [|vk vs]; [contradiction|]. set (l := vk :: vs) in *.
    destruct (gen_all gen_into l) as [a1|]; [|cbn [emit] in F5; congruence].
    destruct (gen_all gen_inner l) as [a2|]; [|cbn [emit] in F2; congruence].
    destruct (gen_all gen_from l) as [a3|]; [|cbn [emit] in F7; congruence].
    destruct (gen_all gen_ref l) as [a4|]; [|cbn [emit] in F8; congruence].
    destruct (gen_all gen_from_impl l) as [a5|]; [|cbn [emit] in F3; congruence].
    cbn [emit] in *. injection H as <-.
    rewrite E1 in F1. rewrite E2 in F2. rewrite E3 in F3. rewrite E4 in F4. rewrite E5 in F5. rewrite E6 in F6.
    rewrite E7 in F7. rewrite E8 in F8.
    injection F1 as ->. injection F2 as ->. injection F3 as ->. injection F4 as ->. injection F5 as ->. injection F6 as ->.
    injection F7 as ->. injection F8 as ->. reflexivity.
  - intros (vs & L & C & X). destruct limit as [|n]; [lia|]. cbn [tagged_box_m].
    destruct (parts n ts vs L ltac:(lia)) as (F1 & F2 & F3 & F4 & F5 & F6 & F7 & F8).
    unfold expand in X. cbn [e_variants e_name e_align e_drop e_copy] in X.
    destruct vs as [|vk vs]; [discriminate|]. destruct ts as [|t0 ts0]; [inversion L|]. clear L C.
    set (l := vk :: vs) in *. set (ts := t0 :: ts0) in *. rewrite F1, F2, F3, F4, F5, F6, F7, F8. clear F1 F2 F3 F4 F5 F6 F7 F8.
    destruct (gen_all gen_into l) as [a1|]; [|discriminate].
    destruct (gen_all gen_inner l) as [a2|]; [|discriminate].
    destruct (gen_all gen_from l) as [a3|]; [|discriminate].
    destruct (gen_all gen_ref l) as [a4|]; [|discriminate].
    destruct (gen_all gen_from_impl l) as [a5|]; [|discriminate].
    injection X as <-. reflexivity.
Qed.

(** A token list spells at most one definition. *)
Theorem C32_unique ts vs vs' : variant_list parse ts vs -> variant_list parse ts vs' -> vs = vs'.
Proof. apply variant_list_fun, Hp. Qed.

Definition from_variant (f : from_impl) : string :=
  match f with FromLeaf _ v => v | FromTuple _ v _ => v end.
Definition is_tuple (vk : string * vkind) : bool := match snd vk with KTuple _ => true | _ => false end.

(** Every part of an accepted definition has the variants of the tokens in their order, and the
    tag of a variant is written in the same way everywhere. *)
Theorem C32_alike limit container name align d c ts x :
  tagged_box_m parse limit container name align d c ts = Done x ->
  exists vs, variant_list parse ts vs /\
    let ns := map fst vs in
    let tags := map (fun n => Tag n 8) ns in
    x_enum x = vs /\ x_counter x = ns /\ x_total x = N.of_nat (length vs) /\
    map ia_variant (x_into x) = ns /\ map ia_tag (x_into x) = tags /\
    map ra_variant (x_inner x) = ns /\ map ra_tag (x_inner x) = tags /\
    map ra_variant (x_from x) = ns /\ map ra_tag (x_from x) = tags /\
    map ra_variant (x_ref x) = ns /\ map ra_tag (x_ref x) = tags /\
    map from_variant (x_froms x) = map fst (filter is_tuple vs).
Proof.
  intros H. apply C32_macro in H as (vs & L & _ & X). exists vs. split; [exact L|]. clear L.
  unfold expand in X. cbn [e_variants e_name e_align e_drop e_copy] in X.
  assert (G : forall A (g : string -> vkind -> option A) (f : A -> string) (h : A -> tag_expr),
    (forall v k a, g v k = Some a -> f a = v /\ h a = Tag v 8) -> forall l l', gen_all g l = Some l' ->
    map f l' = map fst l /\ map h l' = map (fun n => Tag n 8) (map fst l)).
  { intros A g f h Hg. induction l as [|[v k] l IH]; intros l' GA; cbn [gen_all] in GA.
    - injection GA as <-. auto.
    - destruct (g v k) as [a|] eqn:Ga; [|discriminate]. destruct (gen_all g l) as [r|]; [|discriminate]. injection GA as <-.
      destruct (Hg _ _ _ Ga) as [E1 E2]. destruct (IH _ eq_refl) as [I1 I2]. cbn [map fst]. rewrite E1, E2, I1, I2. auto. }
  assert (F : forall l l', gen_all gen_from_impl l = Some l' -> map from_variant (concat l') = map fst (filter is_tuple l)).
  { induction l as [|[v k] l IH]; intros l' GA; cbn [gen_all] in GA.
    - injection GA as <-. reflexivity.
    - destruct (gen_from_impl v k) as [a|] eqn:Ga; [|discriminate]. destruct (gen_all gen_from_impl l) as [r|]; [|discriminate].
      injection GA as <-. cbn [concat filter]. rewrite map_app, (IH _ eq_refl). unfold is_tuple at 2. cbn [snd].
      destruct k as [|tys|ms]; unfold gen_from_impl in Ga.
      + injection Ga as <-. reflexivity.
      + assert (Hs : exists f, a = [f] /\ from_variant f = v).
        { destruct tys as [|t [|t' tys]]; [|injection Ga as <-; exists (FromLeaf t v); auto|].
          - destruct (expand_tuple []) as [idx|]; [|discriminate]. injection Ga as <-. exists (FromTuple [] v idx). auto.
          - destruct (expand_tuple (t :: t' :: tys)) as [idx|]; [|discriminate]. injection Ga as <-. exists (FromTuple (t :: t' :: tys) v idx). auto. }
        destruct Hs as (f & -> & <-). reflexivity.
      + injection Ga as <-. reflexivity. }
  destruct vs as [|vk vs]; [discriminate|]. set (l := vk :: vs) in *.
  destruct (gen_all gen_into l) as [a1|] eqn:G1; [|discriminate].
  destruct (gen_all gen_inner l) as [a2|] eqn:G2; [|discriminate].
  destruct (gen_all gen_from l) as [a3|] eqn:G3; [|discriminate].
  destruct (gen_all gen_ref l) as [a4|] eqn:G4; [|discriminate].
  destruct (gen_all gen_from_impl l) as [a5|] eqn:G5; [|discriminate].
  injection X as <-. cbn [x_enum x_counter x_total x_into x_inner x_from x_ref x_froms].
  assert (T : forall v k a, gen_into v k = Some a -> ia_variant a = v /\ ia_tag a = Tag v 8).
  { intros v k a. unfold gen_into. destruct k as [|[|t [|t' tys]]|ms]; try (intros E; injection E as <-; auto; fail).
    destruct (find_arm _ _) as [[p args]|]; [|discriminate]. intros E; injection E as <-; auto. }
  destruct (G _ _ ia_variant ia_tag T _ _ G1) as [? ?].
  assert (R : forall g : string -> vkind -> option read_arm, (forall v k a, g v k = Some a -> ra_tag a = tag_of v /\ ra_variant a = v) ->
    forall v k a, g v k = Some a -> ra_variant a = v /\ ra_tag a = Tag v 8) by (intros g Hg v k a Ha; destruct (Hg _ _ _ Ha); auto).
  destruct (G _ _ ra_variant ra_tag (R _ gen_inner_tag) _ _ G2) as [? ?].
  destruct (G _ _ ra_variant ra_tag (R _ gen_from_tag) _ _ G3) as [? ?].
  destruct (G _ _ ra_variant ra_tag (R _ gen_ref_tag) _ _ G4) as [? ?].
  repeat split; try assumption. apply F, G5.
Qed.

(** ** C44: Invalid definitions are never reported by the intended message *)

(** Tokens that do not begin with a name followed by [,], [( .. )] or [{ .. }]. *)
Definition not_variant (ts : list tree) : Prop :=
  match ts with
  | [] => False
  | TId _ :: TComma :: _ => False
  | TId _ :: TGroup Paren _ :: _ => False
  | TId _ :: TGroup Brace _ :: _ => False
  | _ => True
  end.

Lemma not_variant_stuck ts : not_variant ts -> step parse ts = SStuck.
Proof.
  destruct ts as [|[s|s| | | | |s|d l] ts]; cbn [not_variant]; try reflexivity; [intros []|].
  destruct ts as [|[s'|s'| | | | |s'|[] l] ts]; try reflexivity; intros [].
Qed.

Lemma prefix_loops pre vs : variant_list parse pre vs -> forall junk n fin, not_variant junk ->
  counter_enum parse n (marked fin (pre ++ junk)) = Limit.
Proof.
  induction 1 as [|v form k rest vs F L IH]; intros junk n fin J.
  - apply counter_loops, not_variant_stuck, J.
  - destruct n as [|n]; [reflexivity|]. rewrite counter_marked.
    assert (S : step parse ((TId v :: form ++ TComma :: rest) ++ junk) = SVar v k (rest ++ junk)).
    { apply step_var; [exact Hp|]. exists form. split; [exact F|]. cbn [app]. rewrite <- app_assoc. reflexivity. }
    rewrite S. apply IH, J.
Qed.

(** The message of [__counter_enum!] is out of reach: whatever the tokens (not beginning with [@]). *)
Theorem C44_no_message limit container name align d c ts msg : no_mark ts ->
  tagged_box_m parse limit container name align d c ts <> Message msg.
Proof.
  intros NM. destruct limit as [|n]; [discriminate|]. cbn [tagged_box_m]. destruct ts as [|t0 ts0]; [discriminate|].
  set (ts := t0 :: ts0) in *.
  assert (C1 : forall m, counter_enum parse n ts <> Message m).
  { intros m. destruct n as [|n]; [discriminate|].
    rewrite counter_unmarked by auto using no_mark_inner, no_mark_error. apply counter_message. }
  destruct (counter_enum parse n ts) as [l| | |m] eqn:E; try discriminate; [|exfalso; eapply C1; reflexivity]. cbn [and_then].
  assert (V : exists vs, variant_list parse ts vs).
  { destruct n as [|n]; [discriminate|]. rewrite counter_unmarked in E by auto using no_mark_inner, no_mark_error.
    eapply counter_inv; eassumption. }
  clear E C1. destruct n as [|n]; [discriminate|].
  assert (K : forall A (m : exp A) (B : Type) (f : A -> exp B), (forall q, m <> Message q) ->
    (forall a, f a <> Message msg) -> and_then m f <> Message msg).
  { intros A m B f Hm Hf. destruct m; cbn; try discriminate; [apply Hf|]. exfalso. eapply Hm. reflexivity. }
  apply K; [intros q; unfold boxed_into_inner_m; eapply (collect_message parse gen_inner free); [reflexivity|apply inner_S, Hp]|intros a2].
  apply K; [intros q; unfold derive_from; apply (derive_message parse Hp)|intros a3].
  apply K; [intros q; unfold make_enum; eapply (collect_message parse (fun v k => Some (v, k)) free); [reflexivity|apply make_enum_S]|intros a4].
  apply K; [intros q; unfold into_box; eapply (collect_message parse gen_into extra); [reflexivity|apply into_next, Hp]|intros a5].
  apply K.
  { intros q. destruct V as (vs & L). rewrite count_unmarked by auto using no_mark_inner.
    assert (G : forall n fin ns ts vs, variant_list parse ts vs -> names fin = Some ns -> count_variants parse n (marked fin ts) <> Message q).
    { clear - Hp. induction n as [|n IH]; intros fin ns ts vs L N; [discriminate|]. rewrite count_marked.
      apply variant_list_step in L; [|exact Hp]. destruct vs as [|[v k] vs]; [rewrite L, N; discriminate|].
      destruct L as (rest & -> & L). eapply IH; [exact L|apply names_app, N]. }
    eapply G; [exact L|reflexivity]. }
  intros a6.
  apply K; [intros q; unfold from_tagged; eapply (collect_message parse gen_from free); [reflexivity|apply from_S, Hp]|intros a7].
  apply K; [intros q; unfold ref_from; eapply (collect_message parse gen_ref free); [reflexivity|apply ref_S, Hp]|intros a8].
  discriminate.
Qed.

(** Instead, after something that does not look like a variant, [__counter_enum!] calls itself until
    the recursion limit, however high that is. *)
Theorem C44_loops limit container name align d c pre vs junk : variant_list parse pre vs -> not_variant junk ->
  no_mark (pre ++ junk) ->
  tagged_box_m parse limit container name align d c (pre ++ junk) = Limit.
Proof.
  intros L J NM. destruct limit as [|n]; [reflexivity|]. cbn [tagged_box_m].
  destruct (pre ++ junk) as [|t0 ts0] eqn:E; [apply app_eq_nil in E as [_ ->]; destruct J|]. rewrite <- E in NM |- *.
  destruct n as [|n]; [reflexivity|].
  rewrite counter_unmarked by auto using no_mark_inner, no_mark_error. rewrite (prefix_loops _ _ L) by exact J. reflexivity.
Qed.

(** ** C45: The recursion limit bounds the size of a definition *)

Theorem C45_limit container name align d c ts vs x :
  variant_list parse ts vs -> expand (Edef container name align d c vs) = Some x ->
  forall limit, tagged_box_m parse limit container name align d c ts = Done x <->
    length vs + other_tuples vs + 3 <= limit.
Proof.
  intros L X limit. rewrite C32_macro. split.
  - intros (vs' & L' & C & _). rewrite (C32_unique _ _ _ L L'). exact C.
  - intros C. exists vs. auto.
Qed.

(** Beyond the limit there is no other way to succeed. *)
Theorem C45_too_many container name align d c ts vs limit x : variant_list parse ts vs ->
  limit < length vs + other_tuples vs + 3 -> tagged_box_m parse limit container name align d c ts <> Done x.
Proof. intros L H D. apply C32_macro in D as (vs' & L' & C & _). rewrite <- (C32_unique _ _ _ L L') in C. lia. Qed.

End Macro.

(** ** Examples *)

(** A parser for a few type names and [&T]. *)
Fixpoint demo_n (n : nat) (ts : list tree) : ty_parse :=
  match n with
  | O => NoStart
  | S n =>
      match ts with
      | TId s :: rest =>
          match find (fun t => String.eqb (ty_name t) s) [ty_u8; ty_u16; ty_u32; ty_i32; ty_u64; ty_bool; ty_string] with
          | Some t => Parsed t rest
          | None => Syntax
          end
      | TOp s :: rest =>
          if String.eqb s "&" then
            match demo_n n rest with
            | Parsed t rest => Parsed (Ty (String.append "&" (ty_name t)) 8 8 all_init false true) rest
            | _ => Syntax
            end
          else NoStart
      | TGroup Paren [] :: rest => Parsed ty_unit rest
      | _ => NoStart
      end
  end.
Definition demo (ts : list tree) : ty_parse := demo_n (length ts) ts.

Lemma demo_ok : parser_ok demo.
Proof.
  split; [reflexivity|]. unfold demo.
  assert (G : forall n ts t rest, demo_n n ts = Parsed t rest -> length rest < length ts).
  { induction n as [|n IH]; intros ts0 t rest H; [discriminate|]. cbn [demo_n] in H.
    destruct ts0 as [|[s|s| | | | |s|[] [|g gs]] ts0]; try discriminate.
    - destruct (find _ _); [|discriminate]. injection H as _ <-. cbn. lia.
    - destruct (String.eqb s "&"); [|discriminate]. destruct (demo_n n ts0) as [| |t' r] eqn:D; try discriminate.
      injection H as _ <-. apply IH in D. cbn. lia.
    - injection H as _ <-. cbn. lia. }
  intros ts t rest H. eapply G, H.
Qed.

(** [Integer(i32), Boolean(bool), Text(String), Unit, Empty(), Many(u8, u32, u8),
    Orphan { thing: u64, other: bool, },] *)
Definition item_tokens : list tree :=
  [TId "Integer"; TGroup Paren [TId "i32"]; TComma;
   TId "Boolean"; TGroup Paren [TId "bool"]; TComma;
   TId "Text"; TGroup Paren [TId "String"]; TComma;
   TId "Unit"; TComma;
   TId "Empty"; TGroup Paren []; TComma;
   TId "Many"; TGroup Paren [TId "u8"; TComma; TId "u32"; TComma; TId "u8"]; TComma;
   TId "Orphan"; TGroup Brace [TId "thing"; TColon; TId "u64"; TComma; TId "other"; TColon; TId "bool"; TComma]; TComma]%string.

Definition summary (m : exp expansion) : exp (list string * N * nat) :=
  and_then m (fun x => Done (x_counter x, x_total x, length (x_froms x))).
Example C32_example :
  summary (tagged_box_m demo 12 "Container" "Item" 8 false false item_tokens) =
    Done (["Integer"; "Boolean"; "Text"; "Unit"; "Empty"; "Many"; "Orphan"]%string, 7%N, 5) /\
  summary (tagged_box_m demo 11 "Container" "Item" 8 false false item_tokens) = Limit.
Proof. lazy. auto. Qed.

(** The last comma is left out; an attribute on a variant; an explicit discriminant; a type that does
    not parse. *)
Example C44_example :
  map (fun ts => summary (tagged_box_m demo 128 "Container" "Item" 8 false false ts))
    [[TId "A"; TComma; TId "B"];
     [TOp "#"; TGroup Bracket [TId "cold"]; TId "A"; TComma];
     [TId "A"; TOp "="; TLit "3"; TComma];
     [TId "A"; TGroup Paren [TId "i32"]; TComma; TId "B"; TGroup Paren [TOp "&"; TComma]; TComma]]%string
  = [Limit; Limit; Limit; Error].
Proof. lazy. reflexivity. Qed.
Example C44_hypotheses : variant_list demo [TId "A"; TComma]%string [("A"%string, KUnit)] /\ not_variant [TId "B"]%string /\
  no_mark [TId "A"; TComma; TId "B"]%string.
Proof. split; [|split; exact I]. apply (vl_cons demo "A" [] KUnit [] []); constructor. Qed.

(** 125 unit variants fit rustc's default limit of 128, 126 do not, whatever the tag width. *)
Fixpoint unit_tokens (n : nat) : list tree :=
  match n with O => [] | S n => TId (String (Ascii.ascii_of_nat n) "V") :: TComma :: unit_tokens n end.
Definition fits (limit n : nat) : bool :=
  match tagged_box_m demo limit "C" "E" 1 false false (unit_tokens n) with Done _ => true | _ => false end.
Example C45_example : fits 128 125 = true /\ fits 128 126 = false /\ fits 259 256 = true.
Proof. lazy. auto. Qed.

(** ** Instances: each theorem applied to a concrete case that meets its hypotheses *)

Definition item_variants : list (string * vkind) :=
  [("Integer", KTuple [ty_i32]); ("Boolean", KTuple [ty_bool]); ("Text", KTuple [ty_string]); ("Unit", KUnit); ("Empty", KTuple []);
   ("Many", KTuple [ty_u8; ty_u32; ty_u8]); ("Orphan", KStruct [("thing", ty_u64); ("other", ty_bool)])]%string.

Lemma item_expansion : exists x, tagged_box_m demo 12 "Container" "Item" 8 false false item_tokens = Done x /\ x_enum x = item_variants.
Proof. eexists. split; lazy; reflexivity. Qed.

Example C32_macro_example : variant_list demo item_tokens item_variants /\ other_tuples item_variants = 2 /\
  exists x, tagged_box_m demo 12 "Container" "Item" 8 false false item_tokens = Done x /\
    expand (Edef "Container" "Item" 8 false false item_variants) = Some x.
Proof.
  destruct item_expansion as (x & H & V). destruct (C32_alike demo demo_ok _ _ _ _ _ _ _ _ H) as (us & L & E & _).
  rewrite V in E. subst us. split; [exact L|]. split; [reflexivity|]. exists x. split; [exact H|].
  apply (C32_macro demo demo_ok) in H. destruct H as (vs & L' & _ & X).
  rewrite (C32_unique demo demo_ok _ _ _ L L'). exact X.
Qed.

Example C32_unique_example : forall vs, variant_list demo item_tokens vs -> vs = item_variants.
Proof. intros vs H. exact (C32_unique demo demo_ok _ _ _ H (proj1 C32_macro_example)). Qed.

Example C32_alike_example : exists x, tagged_box_m demo 12 "Container" "Item" 8 false false item_tokens = Done x /\
  map ia_variant (x_into x) = map fst item_variants /\ map ra_variant (x_ref x) = map fst item_variants /\
  map from_variant (x_froms x) = ["Integer"; "Boolean"; "Text"; "Empty"; "Many"]%string.
Proof.
  destruct item_expansion as (x & H & V). exists x. split; [exact H|].
  destruct (C32_alike demo demo_ok _ _ _ _ _ _ _ _ H) as (vs & L & E & _ & _ & I & _ & _ & _ & _ & _ & R & _ & F).
  rewrite V in E. subst vs. split; [exact I|]. split; [exact R|]. rewrite F. reflexivity.
Qed.

Example C44_no_message_example : forall msg, tagged_box_m demo 128 "Container" "Item" 8 false false [TId "A"; TComma; TId "B"]%string <> Message msg.
Proof. intros msg. apply (C44_no_message demo demo_ok). apply C44_hypotheses. Qed.

Example C44_loops_example : forall limit, tagged_box_m demo limit "Container" "Item" 8 false false [TId "A"; TComma; TId "B"]%string = Limit.
Proof.
  intros limit. destruct C44_hypotheses as (H1 & H2 & H3).
  exact (C44_loops demo demo_ok limit "Container" "Item" 8%N false false [TId "A"; TComma]%string _ [TId "B"]%string H1 H2 H3).
Qed.

Example C45_limit_example : exists x, expand (Edef "Container" "Item" 8 false false item_variants) = Some x /\
  forall limit, tagged_box_m demo limit "Container" "Item" 8 false false item_tokens = Done x <-> 12 <= limit.
Proof.
  destruct C32_macro_example as (L & _ & x & _ & X). exists x. split; [exact X|].
  exact (C45_limit demo demo_ok _ _ _ _ _ _ _ _ L X).
Qed.

Example C45_too_many_example : forall x, tagged_box_m demo 11 "Container" "Item" 8 false false item_tokens <> Done x.
Proof. intros x. apply (C45_too_many demo demo_ok _ _ _ _ _ _ item_variants 11); [apply C32_macro_example|cbn; lia]. Qed.
