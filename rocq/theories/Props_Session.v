(** Property C38: programs using the [TaggedBox] API by the documented contract. *)
From Coq Require Import Arith NArith String Bool List Lia.
From Verif Require Import Words Config Spec ConfigFacts Pointer PointerFacts Mem SpecMem MemFacts Box BoxFacts Bump
  Props_Pointer Props_Box Session SpecSession SessionFacts.
Import ListNotations.
Local Open Scope N_scope.

(** ** C38 Manual API histories are safe under the documented contract *)

Lemma dead_destructors_app l r : dead_destructors (l ++ r) = (dead_destructors l ++ dead_destructors r)%list.
Proof. apply flat_map_app. Qed.

Lemma run_sim E : env_ok E -> forall p c s0 s a, inv E s0 s c a -> follows E p a ->
  exists c' s', let r := arun p (shortages E p c s) a in
    run E p c s = (fst r, Finished c' s') /\ inv E s0 s' c' (snd r) /\ tracks E s a s' (snd r).
Proof.
  intros HE p. induction p as [|o k IH]; intros c s0 s a I F; cbn [follows] in F.
  - exists c, s. cbn [arun run fst snd]. split; [reflexivity|]. split; [exact I|]. apply tracks_refl; reflexivity.
  - destruct F as [Hc Hf].
    destruct (step_sim E HE s0 s c a o I Hc) as (fail & m & x & a' & c' & s' & H1 & H2 & H3 & H4 & H5 & ->).
    { specialize (Hf false). destruct (astep false o a); [discriminate|contradiction]. }
    specialize (Hf (starved E o s)). rewrite H1 in Hf.
    destruct (IH x c' s0 s' a' H4 Hf) as (c2 & s2 & R1 & R2 & R3).
    exists c2, s2. cbn [arun shortages hd tl run]. rewrite H1, H2.
    assert (G : match m s with
                | Ok (x, c') s' => shortages E (k x) c' s'
                | Panicked q s' => shortages E (k (SawPanic q)) (after_panic o c) s'
                | UB _ => [] end = shortages E (k x) c' s')
      by (destruct H3 as [->|(q & -> & -> & ->)]; reflexivity).
    rewrite G. destruct (arun (k x) (shortages E (k x) c' s') a') as [l e]. cbn [fst snd] in *.
    split; [|split; [exact R2|]].
    + destruct H3 as [->|(q & -> & -> & ->)]; rewrite R1; reflexivity.
    + destruct H5 as [(l1 & D1 & D2) B1], R3 as [(l2 & D3 & D4) B2]. split; [|lia].
      exists (l1 ++ l2). rewrite D3, D1, D4, D2, dead_destructors_app, !app_assoc. auto.
Qed.

(** The program never runs into undefined behaviour and sees exactly what the same program on plain
    variables sees, with an out-of-memory panic exactly at the calls for whose block the allocator has
    no memory; exactly the destructors of the plain program's values run, in the same order; blocks
    are made and freed as specified, and memory that was live before is neither freed nor changed. *)
Theorem C38_history : forall E p s, env_ok E -> follows E p a0 ->
  exists c s', let (seen, a) := arun p (shortages E p [] s) a0 in
    run E p [] s = (seen, Finished c s') /\ keeps s s' /\
    destroyed (events s') = destroyed (events s) ++ dead_destructors (dead a) /\
    (List.length (blocks s') + freed a = List.length (blocks s) + made a)%nat.
Proof.
  intros E p s HE F.
  assert (I0 : inv E s s [] a0).
  { constructor; [reflexivity| | | |apply keeps_refl]; intros i; [intros x y H|intros j x y _ H|intros x b H]; destruct i; discriminate. }
  destruct (run_sim E HE p [] s s a0 I0 F) as (c & s' & R1 & R2 & [(l & D1 & D2) B]).
  exists c, s'. destruct (arun p (shortages E p [] s) a0) as [seen a]. cbn [fst snd] in *. cbn in D1, B. subst l.
  split; [exact R1|]. split; [exact (iv_base _ _ _ _ _ R2)|]. split; [exact D2|]. lia.
Qed.

(** As long as memory lasts, the program behaves exactly as on plain variables. *)
Theorem C38_no_failure : forall E p s, env_ok E -> follows E p a0 -> ~ In true (shortages E p [] s) ->
  exists c s', run E p [] s = (fst (arun p [] a0), Finished c s').
Proof.
  intros E p s HE F Hn. destruct (C38_history E p s HE F) as (c & s' & R).
  assert (A : forall p fails a, ~ In true fails -> arun p fails a = arun p [] a).
  { clear. induction p as [|o k IH]; intros fails a H; cbn [arun]; [reflexivity|].
    assert (Hh : hd false fails = false) by (destruct fails as [|[]]; cbn in *; tauto).
    rewrite Hh. cbn [hd tl]. destruct (astep false o a) as [[x a']|]; [|reflexivity].
    rewrite IH; [reflexivity|]. destruct fails; cbn in *; tauto. }
  rewrite (A p (shortages E p [] s)) in R by exact Hn.
  exists c, s'. destruct (arun p [] a0) as [seen a]. apply R.
Qed.

(** *** Every value is destroyed at most once *)

Definition occ (n : nat) (l : list nat) : nat := count_occ Nat.eq_dec l n.

Lemma live_put n y l : forall i x, nth_error l i = Some x ->
  (occ n (flat_map cell_id (put i y l)) + occ n (cell_id x) = occ n (flat_map cell_id l) + occ n (cell_id y))%nat.
Proof.
  unfold occ. induction l as [|z l IH]; intros [|i] x H; cbn [nth_error put flat_map] in *; try discriminate.
  - injection H as ->. rewrite !count_occ_app. lia.
  - rewrite !count_occ_app. specialize (IH i x H). lia.
Qed.

Lemma dead_ids_app l r : dead_ids (l ++ r) = (dead_ids l ++ dead_ids r)%list.
Proof. unfold dead_ids. rewrite filter_app, map_app. reflexivity. Qed.

(** Numbers in use occur once, later ones not at all. *)
Definition counted (a : astate) : Prop := forall n,
  (occ n (live_ids a) + occ n (dead_ids (dead a)) <= (if (n <? next a)%nat then 1 else 0))%nat.

Lemma occ_dead n l U id v :
  occ n (dead_ids (l ++ [(id, U, v)])) = (occ n (dead_ids l) + occ n (if (h_size U =? 0)%N then [] else [id]))%nat.
Proof.
  rewrite dead_ids_app. unfold occ. rewrite count_occ_app. unfold dead_ids at 2. cbn [filter map fst snd].
  destruct (h_size U =? 0); reflexivity.
Qed.

Lemma occ_new n m (z : bool) : (occ n (if z then [] else [m]) + (if (n <? m)%nat then 1 else 0)
  <= (if (n <? S m)%nat then 1 else 0))%nat.
Proof.
  unfold occ. destruct z; cbn [count_occ]; [|destruct (Nat.eq_dec m n)];
    destruct (Nat.ltb_spec n m), (Nat.ltb_spec n (S m)); lia.
Qed.

Lemma counted_step fail o a x a' : counted a -> astep fail o a = Some (x, a') -> counted a'.
Proof.
  intros C H n. specialize (C n). unfold live_ids in *.
  destruct o as [u U val d|i|i|i|i f|i val|i|i|i d|i|i|i|i|i|i|i|i val|i|i val]; cbn [astep] in H.
  - pose proof (occ_new n (next a) (h_size U =? 0)) as B.
    assert (A : forall y, occ n (flat_map cell_id (cells a ++ [y])) = (occ n (flat_map cell_id (cells a)) + occ n (cell_id y))%nat).
    { intros y. unfold occ. rewrite flat_map_app, count_occ_app. cbn [flat_map]. rewrite app_nil_r. reflexivity. }
    destruct (h_size U =? 0) eqn:Z; [|destruct fail]; injection H as <- <-; cbn [cells dead next];
      rewrite A, ?occ_dead; cbn [cell_id]; rewrite ?Z;  unfold occ in *; cbn [count_occ] in *; lia.
  - destruct (nth_error (cells a) i) as [[]|]; try discriminate. injection H as <- <-. exact C.
  - destruct (nth_error (cells a) i) as [[]|]; try discriminate. injection H as <- <-. exact C.
  - destruct (nth_error (cells a) i) as [[]|]; try discriminate. injection H as <- <-. exact C.
  - destruct (nth_error (cells a) i) as [[]|] eqn:Hy; try discriminate. injection H as <- <-. cbn [set cells dead next].
    pose proof (live_put n (ABox U id (f v) d) _ _ _ Hy) as P. cbn [cell_id] in P. lia.
  - destruct (nth_error (cells a) i) as [[]|] eqn:Hy; try discriminate. injection H as <- <-. cbn [set kill cells dead next].
    pose proof (live_put n (ABox U (next a) val d) _ _ _ Hy) as P. cbn [cell_id] in P.
    pose proof (occ_new n (next a) (h_size U =? 0)) as B. rewrite occ_dead. lia.
  - destruct (nth_error (cells a) i) as [[]|] eqn:Hy; try discriminate. injection H as <- <-. cbn [set cells dead next].
    pose proof (live_put n (AVal U id v) _ _ _ Hy) as P. cbn [cell_id] in P. lia.
  - destruct (nth_error (cells a) i) as [[]|] eqn:Hy; try discriminate. injection H as <- <-. cbn [set cells dead next].
    pose proof (live_put n (ARaw U id v) _ _ _ Hy) as P. cbn [cell_id] in P. lia.
  - destruct (nth_error (cells a) i) as [[]|] eqn:Hy; try discriminate. injection H as <- <-. cbn [set cells dead next].
    pose proof (live_put n (ABox U id v d) _ _ _ Hy) as P. cbn [cell_id] in P. lia.
  - destruct (nth_error (cells a) i) as [[]|] eqn:Hy; try discriminate. injection H as <- <-. cbn [set cells dead next].
    pose proof (live_put n (ARust U id v) _ _ _ Hy) as P. cbn [cell_id] in P. lia.
  - destruct (nth_error (cells a) i) as [[]|] eqn:Hy; try discriminate. injection H as <- <-. cbn [set cells dead next].
    pose proof (live_put n (ARust U id v) _ _ _ Hy) as P. cbn [cell_id] in P. lia.
  - destruct (nth_error (cells a) i) as [[]|]; try discriminate. injection H as <- <-. exact C.
  - destruct (nth_error (cells a) i) as [[]|] eqn:Hy; try discriminate. injection H as <- <-. cbn [free set kill cells dead next].
    pose proof (live_put n AGone _ _ _ Hy) as P. cbn [cell_id] in P. change (occ n []) with 0%nat in P.
    rewrite occ_dead. lia.
  - destruct (nth_error (cells a) i) as [[]|] eqn:Hy; try discriminate. injection H as <- <-. cbn [free set cells dead next].
    pose proof (live_put n (AVal U id v) _ _ _ Hy) as P. cbn [cell_id] in P. lia.
  - destruct (nth_error (cells a) i) as [[]|] eqn:Hy; try discriminate. injection H as <- <-. cbn [set cells dead next].
    pose proof (live_put n AGone _ _ _ Hy) as P. cbn [cell_id] in P. change (occ n []) with 0%nat in P. lia.
  - destruct (nth_error (cells a) i) as [[]|] eqn:Hy; try discriminate. injection H as <- <-. cbn [set kill cells dead next].
    pose proof (live_put n AGone _ _ _ Hy) as P. cbn [cell_id] in P. change (occ n []) with 0%nat in P.
    rewrite occ_dead. lia.
  - destruct (nth_error (cells a) i) as [[]|] eqn:Hy; try discriminate. injection H as <- <-. cbn [set kill cells dead next].
    pose proof (live_put n (ABox U (next a) val d) _ _ _ Hy) as P. cbn [cell_id] in P.
    pose proof (occ_new n (next a) (h_size U =? 0)) as B. rewrite occ_dead. lia.
  - destruct (nth_error (cells a) i) as [[]|]; try discriminate. injection H as <- <-. exact C.
  - destruct (nth_error (cells a) i) as [[]|] eqn:Hy; try discriminate. injection H as <- <-. cbn [set kill cells dead next].
    pose proof (live_put n (ARaw U (next a) val) _ _ _ Hy) as P. cbn [cell_id] in P.
    pose proof (occ_new n (next a) (h_size U =? 0)) as B. rewrite occ_dead. lia.
Qed.

Lemma arun_once p fails : let a := snd (arun p fails a0) in NoDup (live_ids a ++ dead_ids (dead a)).
Proof.
  assert (K : forall p fails a, counted a -> counted (snd (arun p fails a))).
  { clear. induction p as [|o k IH]; intros fails a C; cbn [arun]; [exact C|].
    destruct (astep (hd false fails) o a) as [[x a']|] eqn:A; [|exact C].
    specialize (IH x (tl fails) a' (counted_step _ _ _ _ _ C A)).
    destruct (arun (k x) (tl fails) a') as [l e]. exact IH. }
  intros a. apply (NoDup_count_occ Nat.eq_dec). intros n.
  assert (C : counted a) by (apply K; intros m; cbn; destruct (m <? 0)%nat; lia).
  specialize (C n). unfold occ in C. rewrite count_occ_app. destruct (n <? next a)%nat; lia.
Qed.

(** What a variable of the program holds. *)
Definition shows (E : env) (s : st) (x : cell) (y : acell) : Prop :=
  match x, y with
  | CBox U w, ABox U' _ v d => U = U' /\ tb_as_ref E U w s = Ok v s /\ tb_discriminant E w = d
  | CRaw U p, ARaw U' _ v | CRust U p, ARust U' _ v => U = U' /\ read_at U p s = Ok v s
  | CVal U v, AVal U' _ v' => U = U' /\ v = v'
  | CGone, AGone => True
  | _, _ => False
  end.

Lemma rel_shows E s x y : rel E s x y -> shows E s x y.
Proof.
  destruct x, y; cbn [rel shows]; try tauto; intros H; repeat split; try apply H; destruct H as [-> H]; apply H.
Qed.

Lemma inv_shows E s0 s c a : inv E s0 s c a -> Forall2 (shows E s) c (cells a).
Proof.
  intros [L R _ _ _]. revert L R. generalize (cells a) as l. induction c as [|x c IH]; intros [|y l] L R; try discriminate L; constructor.
  - apply rel_shows, (R 0%nat); reflexivity.
  - apply IH; [injection L as L; exact L|]. intros i. exact (R (S i)).
Qed.

(** Every value has a number from when it was made. The destructors that ran are those of certain values; none of these that takes up
    memory was destroyed twice, and none is still held in a variable. *)
Theorem C38_once : forall E p s, env_ok E -> follows E p a0 ->
  exists c s', let (seen, a) := arun p (shortages E p [] s) a0 in
    run E p [] s = (seen, Finished c s') /\ Forall2 (shows E s') c (cells a) /\
    destroyed (events s') = destroyed (events s) ++ dead_destructors (dead a) /\
    NoDup (live_ids a ++ dead_ids (dead a)).
Proof.
  intros E p s HE F.
  assert (I0 : inv E s s [] a0).
  { constructor; [reflexivity| | | |apply keeps_refl]; intros i; [intros x y H|intros j x y _ H|intros x b H]; destruct i; discriminate. }
  destruct (run_sim E HE p [] s s a0 I0 F) as (c & s' & R1 & R2 & [(l & D1 & D2) B]).
  pose proof (arun_once p (shortages E p [] s)) as N.
  exists c, s'. destruct (arun p (shortages E p [] s) a0) as [seen a]. cbn [fst snd] in *. cbn in D1, B. subst l.
  split; [exact R1|]. split; [exact (inv_shows _ _ _ _ _ R2)|]. split; [exact D2|exact N].
Qed.

(** *** Example *)

(** Two boxes; the first is assigned, taken apart into a raw pointer and put back with another tag,
    assigned and read through the raw pointer, turned into a [Box] and dropped; the second is assigned
    through [as_mut_ptr] and moved out, and its value dropped. *)
Definition go (l : list op) : prog := fold_right (fun o p => Do o (fun _ => p)) Stop l.
Definition demo_ops : list op :=
  [NewBox false U_str v_str 3; NewBox true U_u32 v_u32 4; Assign 0 v_str; IntoRaw 0; FromRaw 0 9; Tag 0; Read 0; Read 1;
   AssignPtr 1 [le_bytes 4 77]; IntoInner 1; IntoRaw 0; RawAssign 0 v_str; RawRead 0; RawToBox 0; RustDrop 0; DropValue 1].

(** The client stops when the first allocation fails. *)
Definition demo_prog : prog :=
  Do (NewBox false U_str v_str 3) (fun x =>
    match x with SawPanic _ => Stop | _ => go [Assign 0 v_str; IntoRaw 0; FromRaw 0 9; Tag 0; Read 0; IntoBox 0; RustDrop 0] end).

Example C38_example : let E := bump_env dbg60 in
  env_ok E /\ follows E demo_prog a0 /\
  fst (run E demo_prog [] st0)
    = [SawNothing; SawNothing; SawNothing; SawNothing; SawTag 9; SawValue v_str; SawNothing; SawNothing] /\
  ~ In true (shortages E demo_prog [] st0) /\
  fst (run (Env dbg60 no_memory reprC) demo_prog [] st0) = [SawPanic PanicNullAlloc] /\
  shortages (Env dbg60 no_memory reprC) demo_prog [] st0 = [true] /\
  fst (run E (go demo_ops) [] st0)
    = [SawNothing; SawNothing; SawNothing; SawNothing; SawNothing; SawTag 9; SawValue v_str; SawValue v_u32;
       SawNothing; SawValue [le_bytes 4 77]; SawNothing; SawNothing; SawValue v_str; SawNothing; SawNothing; SawNothing].
Proof.
  split; [apply bump_env_ok, example_targets_ok|].
  destruct example_values_ok as (L1 & V1 & L2 & V2 & L3 & V3).
  assert (M : forall d, d <= 15 -> d <= max_discriminant (cfg (tgt (bump_env dbg60)))).
  { intros d H. vm_compute max_discriminant. exact H. }
  split; [|vm_compute; intuition discriminate].
  split.
  - split; [exact L2|]. split; [exact V2|]. apply M. discriminate.
  - intros []; [exact Logic.I|]. cbn. repeat (split; [first [exact Logic.I|exact V2|apply M; discriminate]|intros _; cbn]).
    exact Logic.I.
Qed.

(** ** Instances: each theorem applied to a concrete case that meets its hypotheses *)

Example C38_history_example : exists c s,
  run (bump_env dbg60) demo_prog [] st0
    = ([SawNothing; SawNothing; SawNothing; SawNothing; SawTag 9; SawValue v_str; SawNothing; SawNothing], Finished c s) /\
  destroyed (events s) = [("String"%string, a_string); ("String"%string, a_string)] /\ blocks s = [].
Proof.
  destruct C38_example as (HE & F & _).
  destruct (C38_history _ _ st0 HE F) as (c & s & H). exists c, s.
  replace (arun demo_prog (shortages (bump_env dbg60) demo_prog [] st0) a0)
    with (arun demo_prog [false; false; false; false; false; false; false; false] a0) in H by (vm_compute; reflexivity).
  set (r := arun demo_prog _ a0) in H.
  assert (A1 : fst r = [SawNothing; SawNothing; SawNothing; SawNothing; SawTag 9; SawValue v_str; SawNothing; SawNothing])
    by (vm_compute; reflexivity).
  assert (A2 : dead_destructors (dead (snd r)) = [("String"%string, a_string); ("String"%string, a_string)]) by (vm_compute; reflexivity).
  assert (A3 : freed (snd r) = made (snd r)) by (vm_compute; reflexivity).
  destruct r as [seen a]. cbn [fst snd] in A1, A2, A3. destruct H as (R & _ & D & B).
  split; [rewrite R, A1; reflexivity|]. split; [rewrite D, A2; reflexivity|].
  rewrite A3 in B. destruct (blocks s) as [|b l]; [reflexivity|cbn in B; lia].
Qed.

Example C38_no_failure_example : exists c s,
  run (bump_env dbg60) demo_prog [] st0 = (fst (arun demo_prog [] a0), Finished c s) /\
  fst (arun demo_prog [] a0) = [SawNothing; SawNothing; SawNothing; SawNothing; SawTag 9; SawValue v_str; SawNothing; SawNothing].
Proof.
  destruct C38_example as (HE & F & _ & N & _).
  destruct (C38_no_failure _ _ st0 HE F N) as (c & s & H). exists c, s. split; [exact H|vm_compute; reflexivity].
Qed.

(** Two strings are made: one by [new], one by assigning to the box, which destroys the first; the program drops the other. *)
Example C38_once_example : exists c s a, run (bump_env dbg60) demo_prog [] st0
    = ([SawNothing; SawNothing; SawNothing; SawNothing; SawTag 9; SawValue v_str; SawNothing; SawNothing], Finished c s) /\
  NoDup (dead_ids (dead a)) /\ dead_ids (dead a) = [0; 1]%nat /\ live_ids a = [] /\ Forall2 (shows (bump_env dbg60) s) c (cells a).
Proof.
  destruct C38_example as (HE & F & _).
  destruct (C38_once _ _ st0 HE F) as (c & s & H). exists c, s.
  replace (arun demo_prog (shortages (bump_env dbg60) demo_prog [] st0) a0)
    with (arun demo_prog [false; false; false; false; false; false; false; false] a0) in H by (vm_compute; reflexivity).
  set (r := arun demo_prog _ a0) in H.
  assert (A1 : fst r = [SawNothing; SawNothing; SawNothing; SawNothing; SawTag 9; SawValue v_str; SawNothing; SawNothing])
    by (vm_compute; reflexivity).
  assert (A2 : dead_ids (dead (snd r)) = [0; 1]%nat) by (vm_compute; reflexivity).
  assert (A3 : live_ids (snd r) = []) by (vm_compute; reflexivity).
  destruct r as [seen a]. cbn [fst snd] in A1, A2, A3. destruct H as (R & S & _ & N). exists a.
  rewrite A3 in N. rewrite R, A1. auto.
Qed.

Print Assumptions C38_history.
Print Assumptions C38_no_failure.
Print Assumptions C38_once.
