(** Proofs about the token munchers. *)
From Coq Require Import Arith NArith String Bool List Lia.
From Verif Require Import Words Config Pointer Mem Box Arms Macro SpecMacro MacroFacts Tokens SpecTokens.
Import ListNotations.

Section Facts.
Variable parse_ty : list tree -> ty_parse.
Hypothesis Hp : parser_ok parse_ty.

Lemma parse_shrinks ts t rest : parse_ty ts = Parsed t rest -> length rest < length ts.
Proof. apply (proj2 Hp). Qed.

Lemma mmap_match {A B} (f : A -> B) m b : mmap f m = Match b <-> exists a, m = Match a /\ b = f a.
Proof.
  destruct m as [| |a]; cbn; split; try discriminate; try (intros (a' & E & _); discriminate).
  - intros E. injection E as <-. eauto.
  - intros (a' & E & ->). injection E as <-. reflexivity.
Qed.

(** ** Patterns against the grammar *)

Lemma types_n_spec n : forall ts l, length ts <= n -> (types_n parse_ty n ts = Match l <-> types_of parse_ty ts l).
Proof.
  induction n as [|n IH]; intros ts l Hn.
  - destruct ts; [|cbn in Hn; lia]. cbn. split; [discriminate|]. intros H.
    inversion H as [? ? E|? ? ? ? E _]; subst; apply parse_shrinks in E; cbn in E; lia.
  - cbn [types_n]. destruct (parse_ty ts) as [| |t rest] eqn:E.
    + split; [discriminate|]. intros H. inversion H; congruence.
    + split; [discriminate|]. intros H. inversion H; congruence.
    + pose proof (parse_shrinks _ _ _ E) as Hs. destruct rest as [|c rest].
      * split; [intros F; injection F as <-; constructor; exact E|]. intros H. inversion H; subst; congruence.
      * assert (Hc : c = TComma \/ c <> TComma) by (destruct c; auto; right; discriminate).
        destruct Hc as [->|Hc].
        -- rewrite mmap_match. cbn in Hs. split.
           ++ intros (a & R & ->). apply IH in R; [|lia]. eapply to_more; eassumption.
           ++ intros H. inversion H as [? ? E'|? t' rest' l' E' H']; subst; [congruence|].
              rewrite E in E'. injection E' as <- <-. exists l'. split; [apply IH; [lia|exact H']|reflexivity].
        -- split; [destruct c; try discriminate; contradiction|]. intros H. inversion H; subst; congruence.
Qed.

Lemma m_types_spec ts l : m_types parse_ty ts = Match l <-> (ts = [] /\ l = []) \/ types_of parse_ty ts l.
Proof.
  destruct ts as [|c ts].
  - cbn. split.
    + intros E. injection E as <-. auto.
    + intros [[_ ->]|H]; [reflexivity|]. inversion H as [? ? E|? ? ? ? E _]; subst; apply parse_shrinks in E; cbn in E; lia.
  - cbn [m_types]. rewrite types_n_spec by lia. split; [auto|]. intros [[H _]|H]; [discriminate|exact H].
Qed.

(** A single type. *)
Lemma one_type_match ts t : m_one_type parse_ty ts = Match t <-> parse_ty ts = Parsed t [].
Proof.
  unfold m_one_type. destruct (parse_ty ts) as [| |t' [|c r]]; split; try discriminate; intros E; injection E as <-; reflexivity.
Qed.

Lemma one_type_types ts t : m_one_type parse_ty ts = Match t -> m_types parse_ty ts = Match [t].
Proof. rewrite one_type_match, m_types_spec. intros E. right. constructor. exact E. Qed.

Lemma one_type_fatal ts : m_one_type parse_ty ts = Fatal -> m_types parse_ty ts = Fatal.
Proof.
  unfold m_one_type. intros H. destruct ts as [|c ts].
  - rewrite (proj1 Hp) in H. discriminate.
  - cbn [m_types length types_n]. destruct (parse_ty (c :: ts)) as [| |t [|c' r]]; try discriminate. reflexivity.
Qed.

Lemma one_type_not ts l : m_one_type parse_ty ts = NoMatch -> m_types parse_ty ts = Match l -> length l <> 1.
Proof.
  intros N M. apply m_types_spec in M as [[-> ->]|M]; [cbn; lia|].
  inversion M as [? t E|? t rest l' E M']; subst.
  - apply one_type_match in E. congruence.
  - cbn. inversion M'; cbn; lia.
Qed.

(** Members without and with the comma after the last one. *)
Inductive members_plain : list tree -> list (string * rty) -> Prop :=
| mp_last m ts t : parse_ty ts = Parsed t [] -> members_plain (TId m :: TColon :: ts) [(m, t)]
| mp_more m ts t rest l : parse_ty ts = Parsed t (TComma :: rest) -> members_plain rest l ->
    members_plain (TId m :: TColon :: ts) ((m, t) :: l).
Inductive members_trail : list tree -> list (string * rty) -> Prop :=
| mt_last m ts t : parse_ty ts = Parsed t [TComma] -> members_trail (TId m :: TColon :: ts) [(m, t)]
| mt_more m ts t rest l : parse_ty ts = Parsed t (TComma :: rest) -> members_trail rest l ->
    members_trail (TId m :: TColon :: ts) ((m, t) :: l).

Lemma members_split ts l : members_of parse_ty ts l <-> members_plain ts l \/ members_trail ts l.
Proof.
  split.
  - induction 1 as [m ts t E|m ts t E|m ts t rest l E H [IH|IH]].
    + left. constructor. exact E.
    + right. constructor. exact E.
    + left. eapply mp_more; eassumption.
    + right. eapply mt_more; eassumption.
  - intros [H|H]; induction H.
    + apply mo_last. assumption.
    + eapply mo_more; eassumption.
    + apply mo_last_comma. assumption.
    + eapply mo_more; eassumption.
Qed.

Lemma comma_dec (c : tree) : c = TComma \/ c <> TComma.
Proof. destruct c; auto; right; discriminate. Qed.

Lemma members_n_spec n : forall ts l, length ts <= n -> (members_n parse_ty n ts = Match l <-> members_plain ts l).
Proof.
  induction n as [|n IH]; intros ts l Hn.
  - destruct ts; [|cbn in Hn; lia]. cbn. split; [discriminate|]. intros H. inversion H.
  - destruct ts as [|[m| | | | | | |] [|[] ts]]; try (cbn; split; [discriminate|intros H; inversion H]; fail).
    cbn [members_n]. destruct (parse_ty ts) as [| |t rest] eqn:E;
      try (split; [discriminate|intros H; inversion H; congruence]; fail).
    pose proof (parse_shrinks _ _ _ E) as Hs. destruct rest as [|c rest].
    + split; [intros F; injection F as <-; constructor; exact E|]. intros H. inversion H; subst; congruence.
    + destruct (comma_dec c) as [->|Hc].
      * rewrite mmap_match. cbn in Hs, Hn. split.
        -- intros (a & R & ->). apply IH in R; [|lia]. eapply mp_more; eassumption.
        -- intros H. inversion H as [? ? ? E'|? ? t' rest' l' E' H']; subst; [congruence|].
           rewrite E in E'. injection E' as <- <-. exists l'. split; [apply IH; [lia|exact H']|reflexivity].
      * split; [destruct c; try discriminate; contradiction|]. intros H. inversion H; subst; congruence.
Qed.

Lemma members_comma_n_spec n : forall ts l, length ts <= n ->
  (members_comma_n parse_ty n ts = Match l <-> (ts = [] /\ l = []) \/ members_trail ts l).
Proof.
  induction n as [|n IH]; intros ts l Hn.
  - destruct ts; [|cbn in Hn; lia]. cbn. split.
    + intros E. injection E as <-. auto.
    + intros [[_ ->]|H]; [reflexivity|inversion H].
  - destruct ts as [|[m| | | | | | |] [|[] ts]];
      try (cbn; split; [discriminate|intros [[H _]|H]; [discriminate|inversion H]]; fail).
    + cbn. split; [intros E; injection E as <-; auto|]. intros [[_ ->]|H]; [reflexivity|inversion H].
    + cbn [members_comma_n]. destruct (parse_ty ts) as [| |t rest] eqn:E;
        try (split; [discriminate|intros [[H _]|H]; [discriminate|inversion H; congruence]]; fail).
      pose proof (parse_shrinks _ _ _ E) as Hs. destruct rest as [|c rest].
      { split; [discriminate|]. intros [[H _]|H]; [discriminate|]. inversion H; congruence. }
      destruct (comma_dec c) as [->|Hc].
      * rewrite mmap_match. cbn in Hs, Hn. split.
        -- intros (a & R & ->). right. apply IH in R; [|lia]. destruct R as [[-> ->]|R]; [constructor; exact E|].
           eapply mt_more; eassumption.
        -- intros [[H _]|H]; [discriminate|]. inversion H as [? ? ? E'|? ? t' rest' l' E' H']; subst.
           ++ rewrite E in E'. injection E' as <- ->. exists []. split; [apply IH; [cbn; lia|auto]|reflexivity].
           ++ rewrite E in E'. injection E' as <- <-. exists l'. split; [apply IH; [lia|auto]|reflexivity].
      * split; [destruct c; try discriminate; contradiction|].
        intros [[H _]|H]; [discriminate|]. inversion H; subst; congruence.
Qed.

Lemma m_members_spec ts l : m_members parse_ty ts = Match l <-> (ts = [] /\ l = []) \/ members_plain ts l.
Proof.
  destruct ts as [|c ts].
  - cbn. split; [intros E; injection E as <-; auto|]. intros [[_ ->]|H]; [reflexivity|inversion H].
  - cbn [m_members]. rewrite members_n_spec by lia. split; [auto|]. intros [[H _]|H]; [discriminate|exact H].
Qed.

Lemma m_members_comma_spec ts l :
  m_members_comma parse_ty ts = Match l <-> (ts = [] /\ l = []) \/ members_trail ts l.
Proof. apply members_comma_n_spec. lia. Qed.

(** A syntax error shows in the same way whether or not a comma is expected last. *)
Lemma members_fatal_n n : forall ts, length ts <= n -> members_comma_n parse_ty n ts = Fatal ->
  members_n parse_ty n ts = Fatal.
Proof.
  induction n as [|n IH]; intros ts Hn; cbn [members_comma_n members_n].
  - destruct ts; [discriminate|cbn in Hn; lia].
  - destruct ts as [|[m| | | | | | |] [|[] ts]]; try discriminate.
    destruct (parse_ty ts) as [| |t rest] eqn:E; try discriminate; [reflexivity|].
    pose proof (parse_shrinks _ _ _ E) as Hs. cbn in Hn, Hs.
    destruct rest as [|[] rest]; try discriminate.
    destruct (members_comma_n parse_ty n rest) eqn:R; cbn [mmap]; try discriminate. intros _.
    rewrite IH; [reflexivity| |exact R]. cbn in Hs. lia.
Qed.

(** The grammar is unambiguous: a token list has at most one reading. *)
Lemma types_of_fun ts l l' : types_of parse_ty ts l -> types_of parse_ty ts l' -> l = l'.
Proof. rewrite <- !types_n_spec with (n := length ts) by lia. congruence. Qed.

Lemma members_not_both n : forall ts l l', length ts <= n -> members_plain ts l -> members_trail ts l' -> False.
Proof.
  induction n as [|n IH]; intros ts l l' Hn H H'.
  - destruct ts; [inversion H|cbn in Hn; lia].
  - inversion H as [m ts0 t E|m ts0 t rest l0 E H0]; subst; inversion H' as [? ? ? E'|? ? ? ? ? E' H0']; subst;
      try congruence; rewrite E in E'; injection E' as _ ->.
    + inversion H0.
    + apply parse_shrinks in E. cbn in E, Hn. eapply IH; [|exact H0|exact H0']. cbn in *. lia.
Qed.

(** ** One step of a muncher *)

Inductive step_res : Type := SVar (v : string) (k : vkind) (rest : list tree) | SEnd | SStuck | SFatal.

(** The arms all munchers have in common, in their order. *)
Definition step (ts : list tree) : step_res :=
  match p_tuple parse_ty ts with
  | Match (v, tys, rest) => SVar v (KTuple tys) rest
  | Fatal => SFatal
  | NoMatch =>
  match p_struct parse_ty ts with
  | Match (v, ms, rest) => SVar v (KStruct ms) rest
  | Fatal => SFatal
  | NoMatch =>
  match p_struct_comma parse_ty ts with
  | Match (v, ms, rest) => SVar v (KStruct ms) rest
  | Fatal => SFatal
  | NoMatch =>
  match p_unit ts with
  | Match (v, rest) => SVar v KUnit rest
  | Fatal => SFatal
  | NoMatch => match ts with [] => SEnd | _ => SStuck end
  end end end end.

Lemma then_rest_match {A} (m : mres A) ts r : then_rest m ts = Match r <-> exists a rest, m = Match a /\ ts = TComma :: rest /\ r = (a, rest).
Proof.
  destruct m as [| |a]; cbn; split; try discriminate; try (intros (? & ? & E & _); discriminate).
  - destruct ts as [|[] ts]; try discriminate. intros E. injection E as <-. eauto 6.
  - intros (b & rest & E & -> & ->). injection E as <-. reflexivity.
Qed.

Lemma step_var ts v k rest : step ts = SVar v k rest <->
  exists form, variant_form parse_ty form k /\ ts = TId v :: form ++ TComma :: rest.
Proof.
  split.
  - unfold step. destruct (p_tuple parse_ty ts) as [| |[[v' tys] rest']] eqn:P1; [|discriminate|].
    2: { intros E. injection E as <- <- <-. destruct ts as [|[] [|[| | | | | | |[] l] ts]]; try discriminate.
         cbn [p_tuple] in P1. apply then_rest_match in P1 as (a & r & P & -> & E). apply mmap_match in P as (b & P & ->).
         injection E as <- <- <-. apply m_types_spec in P as [[-> ->]|P].
         - exists [TGroup Paren []]. split; [constructor|reflexivity].
         - exists [TGroup Paren l]. split; [constructor; exact P|reflexivity]. }
    destruct (p_struct parse_ty ts) as [| |[[v' ms] rest']] eqn:P2; [|discriminate|].
    2: { intros E. injection E as <- <- <-. destruct ts as [|[] [|[| | | | | | |[] l] ts]]; try discriminate.
         cbn [p_struct] in P2. apply then_rest_match in P2 as (a & r & P & -> & E). apply mmap_match in P as (b & P & ->).
         injection E as <- <- <-. apply m_members_spec in P as [[-> ->]|P].
         - exists [TGroup Brace []]. split; [constructor|reflexivity].
         - exists [TGroup Brace l]. split; [constructor; apply members_split; auto|reflexivity]. }
    destruct (p_struct_comma parse_ty ts) as [| |[[v' ms] rest']] eqn:P3; [|discriminate|].
    2: { intros E. injection E as <- <- <-. destruct ts as [|[] [|[| | | | | | |[] l] ts]]; try discriminate.
         cbn [p_struct_comma] in P3. apply then_rest_match in P3 as (a & r & P & -> & E). apply mmap_match in P as (b & P & ->).
         injection E as <- <- <-. apply m_members_comma_spec in P as [[-> ->]|P].
         - exists [TGroup Brace []]. split; [constructor|reflexivity].
         - exists [TGroup Brace l]. split; [constructor; apply members_split; auto|reflexivity]. }
    destruct (p_unit ts) as [| |[v' rest']] eqn:P4; [|discriminate|].
    { destruct ts; discriminate. }
    intros E. injection E as <- <- <-. destruct ts as [|[] ts]; try discriminate. cbn [p_unit] in P4.
    apply then_rest_match in P4 as (a & r & P & -> & E). injection P as <-. injection E as <- <-.
    exists []. split; [constructor|reflexivity].
  - intros (form & F & ->). inversion F as [|  |l tys T| |l ms T]; subst; cbn [app]; unfold step.
    + reflexivity.
    + reflexivity.
    + cbn [p_tuple]. rewrite (proj2 (m_types_spec l tys)) by auto. reflexivity.
    + reflexivity.
    + cbn [p_tuple p_struct p_struct_comma]. apply members_split in T as [T|T].
      * rewrite (proj2 (m_members_spec l ms)) by auto. reflexivity.
      * assert (Tm : m_members_comma parse_ty l = Match ms) by (apply m_members_comma_spec; auto).
        destruct (m_members parse_ty l) as [| |ms'] eqn:M.
        -- cbn [mmap then_rest]. rewrite Tm. reflexivity.
        -- (* a trailing comma is never a syntax error for the other arm *)
           exfalso. destruct l as [|c l]; [discriminate|]. cbn [m_members] in M.
           assert (G : forall n ts ms, length ts <= n -> members_trail ts ms -> members_n parse_ty n ts <> Fatal).
           { clear - Hp. induction n as [|n IH]; intros ts ms Hn H; [destruct ts; [inversion H|cbn in Hn; lia]|].
             inversion H as [m ts0 t E|m ts0 t rest l E H0]; subst; cbn [members_n]; rewrite E; pose proof (parse_shrinks _ _ _ E) as Hs; cbn in Hs, Hn.
             - destruct n; cbn; discriminate.
             - specialize (IH rest l ltac:(lia) H0). destruct (members_n parse_ty n rest); cbn; congruence. }
           eapply (G _ (c :: l)); [|exact T|exact M]. lia.
        -- exfalso. apply m_members_spec in M as [[-> ->]|M]; [inversion T|]. eapply members_not_both; [|exact M|exact T]. apply le_n.
Qed.

Lemma step_end ts : step ts = SEnd <-> ts = [].
Proof.
  split; [|intros ->; reflexivity]. unfold step.
  destruct (p_tuple parse_ty ts) as [| |[[? ?] ?]]; try discriminate.
  destruct (p_struct parse_ty ts) as [| |[[? ?] ?]]; try discriminate.
  destruct (p_struct_comma parse_ty ts) as [| |[[? ?] ?]]; try discriminate.
  destruct (p_unit ts) as [| |[? ?]]; try discriminate. destruct ts; [reflexivity|discriminate].
Qed.

Lemma variant_list_step ts vs : variant_list parse_ty ts vs ->
  match vs with
  | [] => step ts = SEnd
  | (v, k) :: r => exists rest, step ts = SVar v k rest /\ variant_list parse_ty rest r
  end.
Proof.
  intros H. inversion H as [|v form k rest r F L]; subst; [reflexivity|].
  exists rest. split; [|exact L]. apply step_var. eauto.
Qed.

Lemma step_variant_list ts : 
  match step ts with
  | SVar v k rest => forall vs, variant_list parse_ty rest vs -> variant_list parse_ty ts ((v, k) :: vs)
  | SEnd => variant_list parse_ty ts []
  | _ => forall vs, ~ variant_list parse_ty ts vs
  end.
Proof.
  destruct (step ts) as [v k rest| | |] eqn:E.
  - intros vs L. apply step_var in E as (form & F & ->). constructor; assumption.
  - apply step_end in E. subst ts. constructor.
  - intros vs H. apply variant_list_step in H. destruct vs as [|[v k] r]; [congruence|]. destruct H as (? & H & _). congruence.
  - intros vs H. apply variant_list_step in H. destruct vs as [|[v k] r]; [congruence|]. destruct H as (? & H & _). congruence.
Qed.

Theorem variant_list_fun ts : forall vs vs', variant_list parse_ty ts vs -> variant_list parse_ty ts vs' -> vs = vs'.
Proof.
  intros vs. revert ts. induction vs as [|[v k] vs IH]; intros ts vs' H H'; apply variant_list_step in H, H'.
  - destruct vs' as [|[v' k'] vs']; [reflexivity|]. destruct H' as (? & H' & _). congruence.
  - destruct H as (rest & H & L). destruct vs' as [|[v' k'] vs']; [congruence|]. destruct H' as (rest' & H' & L').
    rewrite H in H'. injection H' as <- <- <-. f_equal. eapply IH; eassumption.
Qed.

(** ** The munchers in terms of [step] *)

Lemma single_match ts v t rest : p_single parse_ty ts = Match (v, t, rest) -> p_tuple parse_ty ts = Match (v, [t], rest).
Proof.
  destruct ts as [|[] [|[| | | | | | |[] l] ts]]; try discriminate. cbn [p_single p_tuple].
  intros H. apply then_rest_match in H as (a & r & M & -> & E). apply mmap_match in M as (b & M & ->).
  injection E as -> <- <-. rewrite (one_type_types _ _ M). reflexivity.
Qed.

Lemma single_fatal ts : p_single parse_ty ts = Fatal -> p_tuple parse_ty ts = Fatal.
Proof.
  destruct ts as [|[] [|[| | | | | | |[] l] ts]]; try discriminate. cbn [p_single p_tuple].
  destruct (m_one_type parse_ty l) eqn:M; cbn [mmap then_rest]; try discriminate.
  - intros _. rewrite (one_type_fatal _ M). reflexivity.
  - destruct ts as [|[] ?]; discriminate.
Qed.

Lemma single_not ts v tys rest : p_single parse_ty ts = NoMatch -> p_tuple parse_ty ts = Match (v, tys, rest) ->
  length tys <> 1.
Proof.
  destruct ts as [|[] [|[| | | | | | |[] l] ts]]; try discriminate. cbn [p_single p_tuple].
  intros N H. apply then_rest_match in H as (a & r & M & -> & E). apply mmap_match in M as (b & M & ->).
  injection E as -> <- <-. destruct (m_one_type parse_ty l) eqn:O; cbn [mmap then_rest] in N; try discriminate.
  eapply one_type_not; eassumption.
Qed.

(** What a muncher does with its input, for the five macros that collect arms. *)
Definition next {A} (n : nat) (gen : string -> vkind -> option A)
    (again : nat -> A -> list tree -> exp (list A)) (stop : exp (list A)) (ts : list tree) : exp (list A) :=
  match step ts with
  | SVar v k rest => emit (gen v k) (fun a => again n a rest)
  | SEnd => stop
  | SStuck | SFatal => Error
  end.

Lemma make_enum_next n fin ts :
  make_enum_inner parse_ty (S n) fin ts =
  next n (fun v k => Some (v, k)) (fun n a rest => make_enum_inner parse_ty n (fin ++ [a]) rest) (Done fin) ts.
Proof.
  cbn [make_enum_inner]. unfold next, step, arm.
  destruct (p_tuple parse_ty ts) as [| |[[? ?] ?]]; try reflexivity.
  destruct (p_struct parse_ty ts) as [| |[[? ?] ?]]; try reflexivity.
  destruct (p_struct_comma parse_ty ts) as [| |[[? ?] ?]]; try reflexivity.
  destruct (p_unit ts) as [| |[? ?]]; try reflexivity. destruct ts; reflexivity.
Qed.

Ltac munch :=
  unfold next, step, arm;
  match goal with |- context [p_single parse_ty ?ts] =>
    destruct (p_single parse_ty ts) as [| |[[? ?] ?]] eqn:P0;
    [| rewrite (single_fatal _ P0); reflexivity | rewrite (single_match _ _ _ _ P0); reflexivity];
    destruct (p_tuple parse_ty ts) as [| |[[? ?] ?]] eqn:P1; try reflexivity;
    destruct (p_struct parse_ty ts) as [| |[[? ?] ?]]; try reflexivity;
    destruct (p_struct_comma parse_ty ts) as [| |[[? ?] ?]]; try reflexivity;
    destruct (p_unit ts) as [| |[? ?]]; try reflexivity; destruct ts; reflexivity
  end.

Lemma inner_next n fin ts :
  boxed_into_inner_inner parse_ty (S n) fin ts =
  next n gen_inner (fun n a rest => boxed_into_inner_inner parse_ty n (fin ++ [a]) rest) (Done fin) ts.
Proof. cbn [boxed_into_inner_inner]. munch. Qed.

Lemma from_next n fin ts :
  from_tagged_inner parse_ty (S n) fin ts =
  next n gen_from (fun n a rest => from_tagged_inner parse_ty n (fin ++ [a]) rest) (Done fin) ts.
Proof. cbn [from_tagged_inner]. munch. Qed.

Lemma ref_next n fin ts :
  ref_from_inner parse_ty (S n) fin ts =
  next n gen_ref (fun n a rest => ref_from_inner parse_ty n (fin ++ [a]) rest) (Done fin) ts.
Proof. cbn [ref_from_inner]. munch. Qed.

(** The extra call for a tuple that does not have exactly one type. *)
Definition extra (k : vkind) : nat :=
  match k with KTuple [_] => 0 | KTuple _ => 1 | _ => 0 end.

Lemma into_next n fin ts :
  into_box_inner parse_ty (S n) fin ts =
  match step ts with
  | SVar v k rest =>
      if Nat.ltb n (extra k) then Limit
      else emit (gen_into v k) (fun a => into_box_inner parse_ty (n - extra k) (fin ++ [a]) rest)
  | SEnd => Done fin
  | SStuck | SFatal => Error
  end.
Proof.
  cbn [into_box_inner]. unfold step, arm.
  destruct (p_single parse_ty ts) as [| |[[v t] rest]] eqn:P0.
  - destruct (p_tuple parse_ty ts) as [| |[[v tys] rest]] eqn:P1.
    + destruct (p_struct parse_ty ts) as [| |[[? ?] ?]]; try reflexivity.
      2: { cbn [extra]. rewrite Nat.sub_0_r. reflexivity. }
      destruct (p_struct_comma parse_ty ts) as [| |[[? ?] ?]]; try reflexivity.
      2: { cbn [extra]. rewrite Nat.sub_0_r. reflexivity. }
      destruct (p_unit ts) as [| |[? ?]]; try reflexivity.
      * destruct ts; reflexivity.
      * cbn [extra]. rewrite Nat.sub_0_r. reflexivity.
    + reflexivity.
    + pose proof (single_not _ _ _ _ P0 P1) as Hl.
      assert (X : extra (KTuple tys) = 1) by (destruct tys as [|? [|? ?]]; cbn in *; congruence).
      rewrite X. destruct n as [|n]; [reflexivity|]. cbn [Nat.ltb Nat.leb Nat.sub]. rewrite Nat.sub_0_r. reflexivity.
  - rewrite (single_fatal _ P0). reflexivity.
  - rewrite (single_match _ _ _ _ P0). cbn [extra]. rewrite Nat.sub_0_r. reflexivity.
Qed.

Lemma derive_next n ts :
  derive_from_inner parse_ty (S n) ts =
  match step ts with
  | SVar v k rest =>
      emit (gen_from_impl v k) (fun a => and_then (derive_from_inner parse_ty n rest) (fun l => Done (a ++ l)))
  | SEnd => Done []
  | SStuck | SFatal => Error
  end.
Proof.
  assert (I : forall m : exp (list from_impl), and_then m (fun l => Done ([] ++ l)) = m) by (intros []; reflexivity).
  cbn [derive_from_inner]. unfold step, arm.
  destruct (p_single parse_ty ts) as [| |[[v t] rest]] eqn:P0.
  - destruct (p_tuple parse_ty ts) as [| |[[v tys] rest]] eqn:P1; try reflexivity.
    destruct (p_struct parse_ty ts) as [| |[[? ?] ?]]; try reflexivity.
    2: { cbn [gen_from_impl emit]. rewrite I. reflexivity. }
    destruct (p_struct_comma parse_ty ts) as [| |[[? ?] ?]]; try reflexivity.
    2: { cbn [gen_from_impl emit]. rewrite I. reflexivity. }
    destruct (p_unit ts) as [| |[? ?]]; try reflexivity.
    2: { cbn [gen_from_impl emit]. rewrite I. reflexivity. }
    destruct ts; reflexivity.
  - rewrite (single_fatal _ P0). reflexivity.
  - rewrite (single_match _ _ _ _ P0). reflexivity.
Qed.

(** ** A muncher on a whole list *)

Section Collect.
Context {A : Type}.
Variable gen : string -> vkind -> option A.
Variable cost : vkind -> nat.
Variable run : nat -> list A -> list tree -> exp (list A).
Hypothesis run_O : forall fin ts, run 0 fin ts = Limit.
Hypothesis run_S : forall n fin ts, run (S n) fin ts =
  match step ts with
  | SVar v k rest => if Nat.ltb n (cost k) then Limit else emit (gen v k) (fun a => run (n - cost k) (fin ++ [a]) rest)
  | SEnd => Done fin
  | SStuck | SFatal => Error
  end.

Fixpoint total_cost (vs : list (string * vkind)) : nat :=
  match vs with [] => 0 | (_, k) :: r => S (cost k) + total_cost r end.

Lemma collect_done vs : forall n fin ts, variant_list parse_ty ts vs -> total_cost vs < n ->
  run n fin ts = emit (gen_all gen vs) (fun l => Done (fin ++ l)).
Proof.
  induction vs as [|[v k] vs IH]; intros n fin ts H Hn; (destruct n as [|n]; [lia|]); apply variant_list_step in H;
    rewrite run_S.
  - rewrite H. cbn [gen_all emit]. rewrite app_nil_r. reflexivity.
  - destruct H as (rest & -> & L). cbn [total_cost] in Hn.
    replace (Nat.ltb n (cost k)) with false by (symmetry; apply Nat.ltb_ge; lia).
    cbn [gen_all]. destruct (gen v k) as [a|]; [cbn [emit]|reflexivity].
    rewrite (IH _ _ _ L) by lia. destruct (gen_all gen vs) as [l|]; [|reflexivity]. cbn [emit].
    rewrite <- app_assoc. reflexivity.
Qed.

Lemma collect_inv n : forall fin ts l, run n fin ts = Done l ->
  exists vs l', variant_list parse_ty ts vs /\ total_cost vs < n /\ gen_all gen vs = Some l' /\ l = fin ++ l'.
Proof.
  induction n as [n IH] using lt_wf_ind. intros fin ts l H. destruct n as [|n]; [rewrite run_O in H; discriminate|].
  rewrite run_S in H. pose proof (step_variant_list ts) as S. destruct (step ts) as [v k rest| | |]; try discriminate.
  - destruct (Nat.ltb n (cost k)) eqn:C; [discriminate|]. apply Nat.ltb_ge in C.
    destruct (gen v k) as [a|] eqn:G; [|discriminate]. cbn [emit] in H.
    destruct (IH (n - cost k) ltac:(lia) _ _ _ H) as (vs & l' & L & T & GA & ->).
    exists ((v, k) :: vs), (a :: l'). repeat split.
    + apply S, L.
    + cbn [total_cost]. lia.
    + cbn [gen_all]. rewrite G, GA. reflexivity.
    + rewrite <- app_assoc. reflexivity.
  - injection H as <-. exists [], []. repeat split; [exact S|cbn; lia|rewrite app_nil_r; reflexivity].
Qed.

Lemma collect_message n : forall fin ts c, run n fin ts <> Message c.
Proof.
  induction n as [n IH] using lt_wf_ind. intros fin ts c. destruct n as [|n]; [rewrite run_O; discriminate|].
  rewrite run_S. destruct (step ts) as [v k rest| | |]; try discriminate.
  destruct (Nat.ltb n (cost k)) eqn:C; [discriminate|]. apply Nat.ltb_ge in C.
  destruct (gen v k) as [a|]; [|discriminate]. cbn [emit]. apply IH. lia.
Qed.
End Collect.

Definition free (k : vkind) : nat := 0.

Lemma free_cost vs : total_cost free vs = length vs.
Proof. induction vs as [|[v k] vs IH]; cbn; lia. Qed.

Ltac plain_next H := intros n fin ts; rewrite H; unfold next; destruct (step ts); try reflexivity;
  cbn [free Nat.ltb Nat.leb]; rewrite Nat.sub_0_r; reflexivity.

Lemma gen_all_self vs : gen_all (fun v k => Some (v, k)) vs = Some vs.
Proof. induction vs as [|[v k] vs IH]; cbn; [reflexivity|rewrite IH; reflexivity]. Qed.

Lemma make_enum_S n fin ts : make_enum_inner parse_ty (S n) fin ts =
  match step ts with
  | SVar v k rest => if Nat.ltb n (free k) then Limit
      else emit (Some (v, k)) (fun a => make_enum_inner parse_ty (n - free k) (fin ++ [a]) rest)
  | SEnd => Done fin | SStuck | SFatal => Error end.
Proof. revert n fin ts. plain_next make_enum_next. Qed.
Lemma inner_S n fin ts : boxed_into_inner_inner parse_ty (S n) fin ts =
  match step ts with
  | SVar v k rest => if Nat.ltb n (free k) then Limit
      else emit (gen_inner v k) (fun a => boxed_into_inner_inner parse_ty (n - free k) (fin ++ [a]) rest)
  | SEnd => Done fin | SStuck | SFatal => Error end.
Proof. revert n fin ts. plain_next inner_next. Qed.
Lemma from_S n fin ts : from_tagged_inner parse_ty (S n) fin ts =
  match step ts with
  | SVar v k rest => if Nat.ltb n (free k) then Limit
      else emit (gen_from v k) (fun a => from_tagged_inner parse_ty (n - free k) (fin ++ [a]) rest)
  | SEnd => Done fin | SStuck | SFatal => Error end.
Proof. revert n fin ts. plain_next from_next. Qed.
Lemma ref_S n fin ts : ref_from_inner parse_ty (S n) fin ts =
  match step ts with
  | SVar v k rest => if Nat.ltb n (free k) then Limit
      else emit (gen_ref v k) (fun a => ref_from_inner parse_ty (n - free k) (fin ++ [a]) rest)
  | SEnd => Done fin | SStuck | SFatal => Error end.
Proof. revert n fin ts. plain_next ref_next. Qed.

(** [derive_from] emits in front. *)
Lemma derive_done vs : forall n ts, variant_list parse_ty ts vs -> length vs < n ->
  derive_from_inner parse_ty n ts = emit (gen_all gen_from_impl vs) (fun l => Done (concat l)).
Proof.
  induction vs as [|[v k] vs IH]; intros n ts H Hn; (destruct n as [|n]; [cbn in Hn; lia|]); apply variant_list_step in H;
    rewrite derive_next.
  - rewrite H. reflexivity.
  - destruct H as (rest & -> & L). cbn [length] in Hn. cbn [gen_all].
    destruct (gen_from_impl v k) as [a|]; [cbn [emit]|reflexivity]. rewrite (IH _ _ L) by lia.
    destruct (gen_all gen_from_impl vs); reflexivity.
Qed.

Lemma derive_inv n : forall ts l, derive_from_inner parse_ty n ts = Done l ->
  exists vs l', variant_list parse_ty ts vs /\ length vs < n /\ gen_all gen_from_impl vs = Some l' /\ l = concat l'.
Proof.
  induction n as [|n IH]; intros ts l H; [discriminate|]. rewrite derive_next in H.
  pose proof (step_variant_list ts) as S. destruct (step ts) as [v k rest| | |]; try discriminate.
  - destruct (gen_from_impl v k) as [a|] eqn:G; [|discriminate]. cbn [emit] in H.
    destruct (derive_from_inner parse_ty n rest) as [l0| | |] eqn:D; try discriminate. injection H as <-.
    destruct (IH _ _ D) as (vs & l' & L & T & GA & ->). exists ((v, k) :: vs), (a :: l').
    repeat split; [apply S, L|cbn; lia|cbn [gen_all]; rewrite G, GA; reflexivity].
  - injection H as <-. exists [], []. repeat split; [exact S|cbn; lia].
Qed.

Lemma derive_message n : forall ts c, derive_from_inner parse_ty n ts <> Message c.
Proof.
  induction n as [|n IH]; intros ts c; [discriminate|]. rewrite derive_next.
  destruct (step ts) as [v k rest| | |]; try discriminate. destruct (gen_from_impl v k) as [a|]; [|discriminate].
  cbn [emit]. specialize (IH rest). destruct (derive_from_inner parse_ty n rest); try discriminate. intros _. eapply IH. reflexivity.
Qed.

(** ** The counter enum and the number of variants *)

Definition marked (fin ts : list tree) : list tree := TAt :: TId "inner" :: TGroup Bracket fin :: ts.

Lemma with_inner_marked {A} fin ts (p : list tree -> mres A) : with_inner (marked fin ts) p = mmap (fun a => (fin, a)) (p ts).
Proof. reflexivity. Qed.

Definition no_mark (ts : list tree) : Prop := match ts with TAt :: _ => False | _ => True end.

Lemma no_mark_inner ts : no_mark ts -> p_inner ts = NoMatch.
Proof. destruct ts as [|[] ts]; try reflexivity. intros []. Qed.

Lemma no_mark_error ts : no_mark ts -> p_error ts = NoMatch.
Proof. destruct ts as [|[] ts]; try reflexivity. intros []. Qed.

Lemma with_inner_none {A} ts (p : list tree -> mres A) : p_inner ts = NoMatch -> with_inner ts p = NoMatch.
Proof. unfold with_inner. intros ->. reflexivity. Qed.

Definition again_error (rest : list tree) : list tree := [TAt; TId "error"; TId "stringify"; TBang; TGroup Paren rest].

Lemma counter_marked n fin ts : counter_enum parse_ty (S n) (marked fin ts) =
  match step ts with
  | SVar v k rest => counter_enum parse_ty n (marked (fin ++ [TId v; TComma]) rest)
  | SEnd => emit (names fin) Done
  | SStuck => counter_enum parse_ty n (again_error ts)
  | SFatal => Error
  end.
Proof.
  cbn [counter_enum]. rewrite !with_inner_marked. unfold step, arm.
  destruct (p_tuple parse_ty ts) as [| |[[? ?] ?]]; try reflexivity.
  destruct (p_struct parse_ty ts) as [| |[[? ?] ?]]; try reflexivity.
  destruct (p_struct_comma parse_ty ts) as [| |[[? ?] ?]]; try reflexivity.
  destruct (p_unit ts) as [| |[? ?]]; try reflexivity. destruct ts; reflexivity.
Qed.

Lemma counter_unmarked n ts : p_inner ts = NoMatch -> p_error ts = NoMatch ->
  counter_enum parse_ty (S n) ts = counter_enum parse_ty n (marked [] ts).
Proof. intros I E. cbn [counter_enum]. rewrite !with_inner_none by exact I. rewrite I, E. reflexivity. Qed.

Lemma names_app l v : forall ns, names l = Some ns -> names (l ++ [TId v; TComma]) = Some (ns ++ [v]).
Proof.
  remember (length l) as k eqn:Hk. revert l Hk. induction k as [k IH] using lt_wf_ind. intros l Hk ns H.
  destruct l as [|[w| | | | | | |] [|[] l]]; try discriminate; cbn [names app] in *.
  - injection H as <-. reflexivity.
  - destruct (names l) as [ns'|] eqn:N; [|discriminate]. cbn in H. injection H as <-.
    rewrite (IH (length l)) with (ns := ns') by (subst k; cbn; auto). reflexivity.
Qed.

Lemma counter_done vs : forall n fin ns ts, variant_list parse_ty ts vs -> length vs < n -> names fin = Some ns ->
  counter_enum parse_ty n (marked fin ts) = Done (ns ++ map fst vs).
Proof.
  induction vs as [|[v k] vs IH]; intros n fin ns ts H Hn N; (destruct n as [|n]; [cbn in Hn; lia|]); apply variant_list_step in H;
    rewrite counter_marked.
  - rewrite H, N. cbn [map]. rewrite app_nil_r. reflexivity.
  - destruct H as (rest & -> & L). cbn [length] in Hn.
    rewrite (IH n _ (ns ++ [v]) _ L); [|lia|apply names_app, N]. rewrite <- app_assoc. reflexivity.
Qed.

Lemma step_error rest : step (again_error rest) = SStuck.
Proof. reflexivity. Qed.

(** After something that is no variant the macro calls itself for ever. *)
Lemma counter_loops n : forall fin ts, step ts = SStuck -> counter_enum parse_ty n (marked fin ts) = Limit.
Proof.
  induction n as [n IH] using lt_wf_ind. intros fin ts H. destruct n as [|n]; [reflexivity|].
  rewrite counter_marked, H. destruct n as [|n]; [reflexivity|].
  rewrite counter_unmarked by reflexivity. apply IH; [lia|apply step_error].
Qed.

Lemma counter_message n : forall fin ts c, counter_enum parse_ty n (marked fin ts) <> Message c.
Proof.
  induction n as [n IH] using lt_wf_ind. intros fin ts c. destruct n as [|n]; [discriminate|].
  destruct (step ts) as [v k rest| | |] eqn:S.
  - rewrite counter_marked, S. apply IH. lia.
  - rewrite counter_marked, S. destruct (names fin); discriminate.
  - rewrite counter_loops by exact S. discriminate.
  - rewrite counter_marked, S. discriminate.
Qed.

Lemma count_marked n fin ts : count_variants parse_ty (S n) (marked fin ts) =
  match step ts with
  | SVar v k rest => count_variants parse_ty n (marked (fin ++ [TId v; TComma]) rest)
  | SEnd => match names fin with Some l => Done (N.of_nat (length l)) | None => count_variants parse_ty n (marked [] (marked fin ts)) end
  | SStuck => count_variants parse_ty n (marked [] (marked fin ts))
  | SFatal => Error
  end.
Proof.
  cbn [count_variants]. rewrite !with_inner_marked. unfold step, arm.
  destruct (p_tuple parse_ty ts) as [| |[[? ?] ?]]; try reflexivity.
  destruct (p_struct parse_ty ts) as [| |[[? ?] ?]]; try reflexivity.
  destruct (p_struct_comma parse_ty ts) as [| |[[? ?] ?]]; try reflexivity.
  destruct (p_unit ts) as [| |[? ?]]; try reflexivity. destruct ts; cbn [p_end mmap]; [unfold p_names; destruct (names fin)|]; reflexivity.
Qed.

Lemma count_unmarked n ts : p_inner ts = NoMatch ->
  count_variants parse_ty (S n) ts = count_variants parse_ty n (marked [] ts).
Proof. intros I. cbn [count_variants]. rewrite !with_inner_none by exact I. reflexivity. Qed.

Lemma count_done vs : forall n fin ns ts, variant_list parse_ty ts vs -> length vs < n -> names fin = Some ns ->
  count_variants parse_ty n (marked fin ts) = Done (N.of_nat (length ns + length vs)).
Proof.
  induction vs as [|[v k] vs IH]; intros n fin ns ts H Hn N; (destruct n as [|n]; [cbn in Hn; lia|]); apply variant_list_step in H;
    rewrite count_marked.
  - rewrite H, N. rewrite Nat.add_0_r. reflexivity.
  - destruct H as (rest & -> & L). cbn [length] in Hn.
    rewrite (IH n _ (ns ++ [v]) _ L); [|lia|apply names_app, N]. do 2 f_equal. rewrite app_length. cbn. lia.
Qed.

Lemma count_loops n : forall fin ts, step ts = SStuck -> count_variants parse_ty n (marked fin ts) = Limit.
Proof.
  induction n as [|n IH]; intros fin ts H; [reflexivity|]. rewrite count_marked, H. apply IH. reflexivity.
Qed.

End Facts.
