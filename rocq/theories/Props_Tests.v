(** Property C47: in which settings the crate's own tests pass. *)
From Coq Require Import Arith NArith String Bool List Lia.
From Verif Require Import Words Config Spec SpecMem ConfigFacts Pointer PointerFacts Mem MemFacts Box BoxFacts Bump Rustc
  Macro SpecMacro MacroFacts Session SpecSession SessionFacts Containers SpecContainers
  Props_Pointer Props_Box Props_Macro Props_Session Props_Containers Manual Tests.
Import ListNotations.
Local Open Scope N_scope.

(** ** What is assumed of the tests' surroundings *)

(** Strings and vectors of the standard library: a value made for a comparison has the same contents,
    [push_str] gives a string of the right contents. *)
Record std_ok (D : std_data) : Prop := {
  so_hello_world : has_type ty_string (hello_world D) /\ text D (hello_world D) = text D (hello_world' D);
  so_six : has_type ty_vec_i32 (six D) /\ items D (six D) = items D (six' D);
  so_hundreds : has_type ty_vec_u8 (hundreds D) /\ items D (hundreds D) = items D (hundreds' D);
  so_hello : has_type ty_string (hello D) /\ text D (hello D) = "Hello"%string;
  so_push : forall v, has_type ty_string v -> text D v = "Hello"%string ->
    has_type ty_string (push_world D v) /\ text D (push_world D v) = "Hello, World!"%string
}.

(** A variable of type [ty] and value [v] lies at address [p], which fits the reserved width. *)
Definition lies_at (E : env) (s : st) (ty : rty) (p : N) (v : leafval) : Prop :=
  p <= max_pointer_value (cfg (tgt E)) /\ p < 2 ^ ptr_bits (tgt E) /\ read_at (leaf_hty ty) p s = Ok [v] s.

Record slots_ok (E : env) (s : st) (P : slots) : Prop := {
  sl_int : lies_at E s ty_i32 (int_at P) (le_bytes 4 100);
  sl_usize : lies_at E s ty_usize (usize_at P) (usize 100);
  sl_text : lies_at E s ty_bytes12 (text_at P) (text_bytes P)
}.

(** The derived [Clone] of the enum in test [clone]: the clone of a string is a string of the same text,
    which one may depend on the state. *)
Definition clones (D : std_data) (F : st -> meaning) : Prop :=
  (forall t v, m_clone (F t) (EV "Usize" [v]) = Done (EV "Usize" [v])) /\
  (forall t v, has_type ty_string v ->
     exists c, m_clone (F t) (EV "Str" [v]) = Done (EV "Str" [c]) /\ has_type ty_string c /\ text D c = text D v).

(** Memory lasts for the test. *)
Definition box_lasts (E : env) (b : box_test) (s : st) : Prop := ~ In true (shortages E (straight (bt_calls b)) [] s).
Definition macro_lasts (E : env) (def : edef) (x : expansion) (I : impls) (m : macro_test) (s : st) : Prop :=
  ~ In true (kshortages E def x I (kstraight (mt_calls m)) [] s).
Definition lasts (m : M unit) (s : st) : Prop := forall s', m s <> Panicked PanicNullAlloc s'.

Record memory_lasts (E : env) (D : std_data) (I1 I2 I3 : impls) (s : st) : Prop := {
  ml_tagged_box : lasts (test_tagged_box E) s;
  ml_new : box_lasts E (test_new E D) s;
  ml_clone : forall x, expand clone_enum = Some x -> macro_lasts E clone_enum x I1 (test_clone D) s;
  ml_storage : forall x, expand storage_enum = Some x -> macro_lasts E storage_enum x I2 (test_storage D) s;
  ml_item : forall x, expand tests_item = Some x -> Forall (fun m => macro_lasts E tests_item x I3 m s)
    [container_into_inner; inner_into_tagged_box; inner_from_tagged_box; inner_ref_from_tagged_box;
     wrapped_refs_from_tagged_box]
}.

Record surroundings (E : env) (D : std_data) (P : slots) (I1 I2 I3 : impls) (F1 F2 F3 : st -> meaning) (s : st) : Prop := {
  su_env : env_ok E;
  su_64 : ptr_bits (tgt E) = 64;
  su_memory : memory_lasts E D I1 I2 I3 s;
  su_std : std_ok D;
  su_slots : slots_ok E s P;
  su_clone : implements keeps clone_enum I1 F1;
  su_clones : clones D F1;
  su_storage : implements keeps storage_enum I2 F2;
  su_item : implements keeps tests_item I3 F3;
  su_tuple : let tys := [ty_usize; ty_usize; ty_f32; ty_usize] in readable_as (reprC tys) (tuple_layout E tys)
}.

(** ** Comparisons *)

Lemma list_eqb_refl {A} (e : A -> A -> bool) l : (forall a, e a a = true) -> list_eqb e l l = true.
Proof. intros H. induction l as [|a l IH]; cbn; [reflexivity|]. rewrite H. exact IH. Qed.
Lemma leaf_eqb_refl v : leaf_eqb v v = true.
Proof. apply list_eqb_refl. intros []; [reflexivity|apply N.eqb_refl]. Qed.
Lemma hval_eqb_refl v : hval_eqb v v = true.
Proof. apply list_eqb_refl, leaf_eqb_refl. Qed.

(** ** Straight programs: it is enough to look at the run without failures *)

Lemma astep_fail o a : astep true o a = astep false o a \/ exists p a', astep true o a = Some (SawPanic p, a').
Proof. destruct o; cbn [astep]; try (left; reflexivity). destruct (h_size U =? 0); [left; reflexivity|right; eauto]. Qed.

(** The calls keep the contract, none panics, and [seen] is what they give, as long as memory lasts. *)
Inductive steps (E : env) : list op -> astate -> list obs -> Prop :=
| steps_nil a : steps E [] a []
| steps_cons o r a x a' seen : contract E a o -> astep false o a = Some (x, a') -> not_panic x = true ->
    steps E r a' seen -> steps E (o :: r) a (x :: seen).

Lemma steps_facts E l a seen : steps E l a seen ->
  follows E (straight l) a /\ fst (arun (straight l) [] a) = seen /\
  List.length seen = List.length l /\ forallb not_panic seen = true.
Proof.
  induction 1 as [a|o r a x a' seen C A P H (IH1 & IH2 & IH3 & IH4)]; [cbn; auto|].
  cbn [straight follows arun hd tl List.length forallb]. rewrite A, P.
  assert (G : (match x with SawPanic _ => Stop | _ => straight r end) = straight r) by (destruct x; [| | |discriminate P]; reflexivity).
  rewrite !G. split; [split; [exact C|]|split; [|auto]].
  - intros []; [|rewrite A, G; exact IH1].
    destruct (astep_fail o a) as [->|(p & b & ->)]; [rewrite A, G; exact IH1|exact I].
  - destruct (arun (straight r) [] a') as [l e]. cbn [fst] in *. subst l. reflexivity.
Qed.

Lemma kastep_fail def F o a : kastep def F true o a = kastep def F false o a \/
  exists p a', kastep def F true o a = Some (KSawPanic p, a').
Proof.
  assert (S : forall i id v (b : kastate), kstore def true i id v b = kstore def false i id v b \/
    exists p a', Some (kstore def true i id v b) = Some (KSawPanic p, a')).
  { intros i id v b. unfold kstore. destruct (needs_block def v); cbn [andb]; [right; eauto|left; reflexivity]. }
  destruct o; cbn [kastep]; try (left; reflexivity).
  - destruct (nth_error (kcells a) i) as [[| |]|]; try (left; reflexivity).
    destruct (S (Some i) id v a) as [->|H]; auto.
  - destruct (payload_variant def src); [|left; reflexivity].
    destruct (S None (knext a) (EV s vals) (kfresh a)) as [->|H]; auto.
  - destruct (nth_error (kcells a) i) as [[| |]|]; try (left; reflexivity).
    destruct (m_clone F v) as [c|]; [|left; reflexivity].
    destruct (S None (knext a) c (kfresh a)) as [->|H]; auto.
Qed.

(** The same of container calls, whatever the user's impls do; [Q] holds of what they give. *)
Fixpoint ksteps (E : env) (def : edef) (F : st -> meaning) (l : list kop) (a : kastate) (Q : list kobs -> Prop) : Prop :=
  match l with
  | [] => Q []
  | o :: r =>
      forall t, kcontract E def (F t) a o /\
      exists x a', kastep def (F t) false o a = Some (x, a') /\ knot_panic x = true /\
        ksteps E def F r a' (fun seen => Q (x :: seen))
  end.

Lemma ksteps_weak E def F l : forall a (Q Q' : list kobs -> Prop), ksteps E def F l a Q -> (forall seen, Q seen -> Q' seen) ->
  ksteps E def F l a Q'.
Proof.
  induction l as [|o r IH]; intros a Q Q' H W; cbn [ksteps] in *; [auto|]. intros t.
  destruct (H t) as (C & x & a' & A & P & K). split; [exact C|]. exists x, a'. split; [exact A|]. split; [exact P|].
  eapply IH; [exact K|]. cbn beta. auto.
Qed.

Lemma ksteps_facts E def F l : forall a Q, ksteps E def F l a Q ->
  kfollows E def F (kstraight l) a /\
  forall G, (forall n : nat, exists t, G n = F t) ->
    let seen := fst (karun def (kstraight l) G [] a) in
    Q seen /\ List.length seen = List.length l /\ forallb knot_panic seen = true.
Proof.
  induction l as [|o r IH]; intros a Q H; cbn [ksteps] in H; [cbn; auto|].
  assert (N : forall x, knot_panic x = true -> (match x with KSawPanic _ => KStop | _ => kstraight r end) = kstraight r)
    by (intros [] P; try discriminate P; reflexivity).
  cbn [kstraight kfollows karun hd tl]. split.
  - intros t. destruct (H t) as (C & x & a' & A & P & K). split; [exact C|]. apply IH in K as [K _].
    intros []; [|rewrite A, (N x P); exact K].
    destruct (kastep_fail def (F t) o a) as [->|(p & b & ->)]; [rewrite A, (N x P); exact K|exact I].
  - intros G HG. destruct (HG 0%nat) as [t Ht]. rewrite Ht. destruct (H t) as (_ & x & a' & A & P & K).
    rewrite A, (N x P). apply IH in K as [_ K]. specialize (K (fun n => G (S n)) (fun n => HG (S n))).
    destruct (karun def (kstraight r) _ [] a') as [l e]. cbn [fst List.length forallb] in *. rewrite P.
    destruct K as (K1 & K2 & K3). auto.
Qed.

(** ** The enums *)

Lemma wf_usize : wf_ty ty_usize. Proof. exact wf_u64. Qed.
Lemma wf_isize : wf_ty ty_isize. Proof. exact wf_u64. Qed.
Lemma wf_f32 : wf_ty ty_f32. Proof. exact wf_u32. Qed.
Lemma wf_usizes : wf_ty ty_usizes. Proof. split; [exists 3; split; [lia|reflexivity]|reflexivity]. Qed.
Lemma wf_vec_i32 : wf_ty ty_vec_i32. Proof. exact wf_string. Qed.
Lemma wf_vec_u8 : wf_ty ty_vec_u8. Proof. exact wf_string. Qed.
Lemma wf_bytes8 : wf_ty ty_bytes8. Proof. split; [exists 0; split; [lia|reflexivity]|reflexivity]. Qed.
Lemma wf_custom_struct : wf_ty ty_custom_struct. Proof. split; [exists 3; split; [lia|reflexivity]|reflexivity]. Qed.

Create HintDb wf.
Global Hint Resolve wf_u8 wf_u32 wf_i32 wf_bool wf_string wf_usize wf_isize wf_f32 wf_usizes wf_vec_i32 wf_vec_u8 wf_bytes8
  wf_custom_struct : wf.

Ltac def_ok_tac :=
  constructor;
  [ discriminate
  | repeat constructor; cbn; intuition discriminate
  | intros v ms H; cbn in H; intuition try discriminate;
    match goal with H : (_, KStruct _) = _ |- _ => injection H as <- <- end; repeat constructor; cbn; intuition discriminate
  | intros v tys H; cbn in H; intuition try discriminate;
    match goal with H : (_, KTuple _) = _ |- _ => injection H as <- <-; cbn; lia end
  | cbn; repeat (constructor; [auto with wf|]); constructor
  | exists 3; split; [lia|reflexivity]
  | cbn; intros H; first [destruct H; discriminate|repeat constructor]
  | cbn; intros H; first [discriminate|reflexivity]
  | cbn; repeat (constructor; [cbn; intros; first [reflexivity|discriminate]|]); constructor
  | cbn; repeat constructor; cbn; intuition discriminate ].

Lemma clone_enum_ok : def_ok clone_enum. Proof. def_ok_tac. Qed.
Lemma storage_enum_ok : def_ok storage_enum. Proof. def_ok_tac. Qed.
Lemma tests_item_ok : def_ok tests_item. Proof. def_ok_tac. Qed.

(** ** Pointer tests *)

Lemma check_ok b s : b = true -> check b s = Ok tt s.
Proof. intros ->. reflexivity. Qed.

Lemma tp_new_store t p d : target_ok t -> p < 2 ^ pointer_width (cfg t) -> d <= max_discriminant (cfg t) ->
  tp_new t p d = Done (store_discriminant t p d).
Proof.
  intros Ht Hp Hd. rewrite tp_new_ok by assumption. rewrite store_in_range by (auto; apply max_disc_lt; assumption). reflexivity.
Qed.

Lemma gives_back_ok t p d s : target_ok t -> p <= max_pointer_value (cfg t) -> d <= max_discriminant (cfg t) ->
  gives_back t p d s = Ok (store_discriminant t p d) s.
Proof.
  intros Ht Hp Hd. apply (max_ptr_eq t Ht) in Hp. pose proof (max_disc_lt t Ht d Hd) as Hd'.
  unfold gives_back. rewrite tp_new_store by assumption. unfold bind, of_outcome, ret.
  rewrite check_ok; [|apply N.eqb_eq, fetch_store_in; assumption].
  rewrite check_ok; [reflexivity|apply N.eqb_eq, strip_store_in; assumption].
Qed.

Lemma points_to_ok E ty p d v s : target_ok (tgt E) -> lies_at E s ty p v -> d <= max_discriminant (cfg (tgt E)) ->
  passes (points_to (tgt E) ty p d v) s.
Proof.
  intros Ht (H1 & H2 & H3) Hd. exists s. unfold points_to, bind. rewrite gives_back_ok by assumption.
  unfold tp_ref_addr. apply (max_ptr_eq _ Ht) in H1.
  rewrite strip_store_in, cast_ptr_id by assumption. rewrite H3.
  apply check_ok, hval_eqb_refl.
Qed.

(** A test that stores a tag that does not fit fails: with debug assertions it panics, without them the
    tag comes back truncated. *)
Lemma gives_back_fails t p d s r s' : target_ok t -> fits 64 p -> 2 ^ discriminant_bits (cfg t) <= d ->
  gives_back t p d s <> Ok r s'.
Proof.
  intros Ht Hp Hd. unfold gives_back, bind. destruct (tp_new t p d) as [w|m] eqn:N; [|discriminate].
  cbn [of_outcome ret]. unfold check. destruct (N.eqb_spec (tp_discriminant t w) d) as [D|]; [|discriminate].
  exfalso. assert (w = store_discriminant t p d) as ->.
  { rewrite tp_new_cases in N.
    destruct (debug_assertions t), (d <=? max_discriminant (cfg t)), (p <=? max_pointer_value (cfg t)); congruence. }
  pose proof (store_lt t Ht p d Hp) as L. unfold tp_discriminant in D. rewrite fetch_eq in D by assumption.
  pose proof (wb64 t Ht) as W. assert (2 ^ 64 = 2 ^ pointer_width (cfg t) * 2 ^ discriminant_bits (cfg t)) as E64.
  { rewrite <- N.pow_add_r. f_equal. symmetry. exact W. }
  rewrite E64 in L.
  apply N.div_lt_upper_bound in L; [|apply N.pow_nonzero; lia]. lia.
Qed.

Lemma in_table (Q : config -> Prop) : Forall Q table -> forall c, In c table -> Q c.
Proof. intros H c. rewrite Forall_forall in H. apply H. Qed.

Lemma narrow c : In c table -> (10 <= max_discriminant c <-> pointer_width c <= 60) /\
  (60 < pointer_width c -> 2 ^ discriminant_bits c <= 10).
Proof.
  revert c. apply in_table. repeat (constructor; [vm_compute; intuition (congruence || discriminate)|]). constructor.
Qed.

Theorem C47_tagged_pointer : forall E s p, target_ok (tgt E) -> lies_at E s ty_i32 p (le_bytes 4 100) ->
  (passes (tagged_pointer (tgt E) p) s <-> pointer_width (cfg (tgt E)) <= 60).
Proof.
  intros E s p Ht Hp. destruct (narrow _ (proj1 Ht)) as [N1 N2]. split.
  - intros [s' H]. destruct (N.le_gt_cases (pointer_width (cfg (tgt E))) 60) as [L|L]; [exact L|exfalso].
    unfold tagged_pointer, points_to, bind in H.
    destruct (gives_back (tgt E) p 10 s) eqn:G; try discriminate H.
    refine (gives_back_fails _ _ _ _ _ _ Ht _ (N2 L) G). destruct Hp as (H1 & _). apply (max_ptr_eq _ Ht) in H1.
    unfold fits. pose proof (w_le_64 _ Ht). lia.
  - intros L. apply points_to_ok; [exact Ht|exact Hp|]. apply N1, L.
Qed.

Theorem C47_pointer_tests : forall E s P, target_ok (tgt E) -> slots_ok E s P ->
  Forall (fun m => passes m s)
    [utility_functions (tgt E); max_pointer (tgt E); min_pointer (tgt E);
     max_discriminant_test (tgt E) (usize_at P); min_discriminant_test (tgt E) (usize_at P);
     string_pointer (tgt E) (text_at P) (text_bytes P)].
Proof.
  intros E s P Ht [S1 S2 S3]. set (t := tgt E) in *. pose proof (proj1 Ht) as Hc.
  assert (F : 0xF00DBEEF <= max_pointer_value (cfg t)).
  { revert Hc. apply (in_table (fun c => 0xF00DBEEF <= max_pointer_value c)).
    repeat (constructor; [vm_compute; discriminate|]). constructor. }
  assert (Half : max_discriminant (cfg t) / 2 <= max_discriminant (cfg t)) by (apply N.div_le_upper_bound; lia).
  repeat constructor.
  - exists s. apply (max_ptr_eq t Ht) in F. pose proof (max_disc_lt t Ht _ Half).
    unfold utility_functions, bind. rewrite tp_new_store by assumption. cbn [of_outcome ret]. unfold tp_as_raw_u64.
    rewrite check_ok by (apply N.eqb_eq, strip_store_in; assumption).
    rewrite check_ok by (apply N.eqb_eq, fetch_store_in; assumption).
    apply check_ok, N.eqb_refl.
  - exists s. unfold max_pointer, bind. fold t. rewrite gives_back_ok by (auto; lia). reflexivity.
  - exists s. unfold min_pointer, bind. fold t. rewrite gives_back_ok by (auto; lia). reflexivity.
  - apply points_to_ok; auto. apply N.le_refl.
  - apply points_to_ok; auto. lia.
  - destruct S3 as (H1 & H2 & H3). exists s. unfold string_pointer, bind. fold t.
    rewrite gives_back_ok by (auto; lia). unfold tp_as_ptr. apply (max_ptr_eq _ Ht) in H1.
    rewrite strip_store_in, cast_ptr_id by assumption. rewrite H3. apply check_ok, hval_eqb_refl.
Qed.

(** The test of the panic: passes with debug assertions; without them only where the tag above the
    highest does not even fit the integer type, by the test's own panic. *)
Theorem C47_oversized : forall t s, target_ok t ->
  (should_panic (oversized_discriminant t) s <->
   debug_assertions t = true \/ pointer_width (cfg t) = 56 \/ pointer_width (cfg t) = 48).
Proof.
  intros t s Ht. pose proof (proj1 Ht) as Hc.
  assert (T : (max_discriminant (cfg t) + 1 <? 2 ^ disc_ty_bits (cfg t)) = false <->
              pointer_width (cfg t) = 56 \/ pointer_width (cfg t) = 48).
  { revert Hc. apply (in_table (fun c => (max_discriminant c + 1 <? 2 ^ disc_ty_bits c) = false <->
      pointer_width c = 56 \/ pointer_width c = 48)).
    repeat (constructor; [vm_compute; intuition discriminate|]). constructor. }
  unfold should_panic, oversized_discriminant.
  destruct (max_discriminant (cfg t) + 1 <? 2 ^ disc_ty_bits (cfg t)) eqn:O.
  - split.
    + intros (p & s' & H). left. unfold bind in H. destruct (debug_assertions t) eqn:Dbg; [reflexivity|exfalso].
      destruct (C05_never_in_release t 0xF00DBEEF (max_discriminant (cfg t) + 1) Dbg) as [w R].
      rewrite R in H. discriminate.
    + intros [Dbg|H]; [|apply T in H; discriminate].
      destruct (proj2 (C05_panics_debug t 0xF00DBEEF (max_discriminant (cfg t) + 1) Ht Dbg)) as [m R]; [left; lia|].
      exists m, s. unfold bind. rewrite R. reflexivity.
  - split; [intros _; right; apply T; reflexivity|]. intros _. eexists _, s. reflexivity.
Qed.

(** ** Box tests *)

Lemma box_test_passes E b s seen : env_ok E -> box_lasts E b s ->
  steps E (bt_calls b) a0 seen -> bt_asserts b seen = true -> box_passes E b s.
Proof.
  intros He Hm S H. destruct (steps_facts _ _ _ _ S) as (Fo & A & L & P).
  destruct (C38_no_failure E _ s He Fo Hm) as (c & s' & R). rewrite A in R. exists seen, c, s'. auto.
Qed.

Lemma le_bytes_ok n x : List.length (le_bytes n x) = n /\ all_init (le_bytes n x) = true.
Proof.
  revert x. induction n as [|n IH]; intros x; [split; reflexivity|]. destruct (IH (x / 256)) as [L A].
  cbn [le_bytes List.length all_init forallb]. split; [congruence|].
  apply andb_true_iff. split; [|exact A]. apply N.ltb_lt, N.mod_lt. lia.
Qed.

Lemma usize_ok n : has_type ty_usize (usize n).
Proof. destruct (le_bytes_ok 8 n). split; assumption. Qed.
Lemma u32_ok n : has_type ty_u32 (u32 n).
Proof. destruct (le_bytes_ok 4 n). split; assumption. Qed.
Lemma i32_ok n : has_type ty_i32 (le_bytes 4 n).
Proof. destruct (le_bytes_ok 4 n). split; assumption. Qed.
Lemma f32_ok n : has_type ty_f32 (f32 n).
Proof. destruct (le_bytes_ok 4 n). split; assumption. Qed.
Lemma boolean_ok b : has_type ty_bool (boolean b).
Proof. destruct b; split; reflexivity. Qed.

Lemma quotient c k : 0 < k -> max_discriminant c / k <= max_discriminant c.
Proof. intros H. apply N.div_le_upper_bound; nia. Qed.

(** Four boxes made, then emptied one by one. *)
Lemma four_boxes E s U1 v1 d1 U2 v2 d2 U3 v3 d3 U4 v4 d4 asserts :
  env_ok E -> box_lasts E (BoxTest [NewBox false U1 v1 d1; NewBox false U2 v2 d2; NewBox false U3 v3 d3; NewBox false U4 v4 d4;
     IntoInner 0; IntoInner 1; IntoInner 2; DropValue 2; IntoInner 3; DropValue 3] asserts) s ->
  Forall (fun x => layout_legal (fst (fst x)) /\ hval_ok (fst (fst x)) (snd (fst x)) /\ snd x <= max_discriminant (cfg (tgt E)))
    [(U1, v1, d1); (U2, v2, d2); (U3, v3, d3); (U4, v4, d4)] ->
  asserts [SawNothing; SawNothing; SawNothing; SawNothing; SawValue v1; SawValue v2; SawValue v3; SawNothing;
           SawValue v4; SawNothing] = true ->
  box_passes E (BoxTest [NewBox false U1 v1 d1; NewBox false U2 v2 d2; NewBox false U3 v3 d3; NewBox false U4 v4 d4;
     IntoInner 0; IntoInner 1; IntoInner 2; DropValue 2; IntoInner 3; DropValue 3] asserts) s.
Proof.
  intros He Hm H A. inversion H as [|? ? (L1 & W1 & M1) H2]; subst. inversion H2 as [|? ? (L2 & W2 & M2) H3]; subst.
  inversion H3 as [|? ? (L3 & W3 & M3) H4]; subst. inversion H4 as [|? ? (L4 & W4 & M4) _]; subst.
  cbn [fst snd] in *. clear H H2 H3 H4.
  eapply box_test_passes; [exact He|exact Hm| |exact A]. cbn [bt_calls].
  assert (N : forall U v d r b seen, layout_legal U -> hval_ok U v -> d <= max_discriminant (cfg (tgt E)) ->
    (forall z1 z2 z3, steps E r (AState (cells b ++ [ABox U (next b) v d]) z1 z2 z3 (freed b)) seen) ->
    steps E (NewBox false U v d :: r) b (SawNothing :: seen)).
  { intros U v d r b seen H1 H2 H3 H. destruct (h_size U =? 0) eqn:Z;
      (eapply steps_cons; [cbn; auto|cbn; rewrite Z; reflexivity|reflexivity|apply H]). }
  apply N; auto. intros ? ? ?. cbn [cells next freed a0 app].
  apply N; auto. intros ? ? ?. cbn [cells next freed app].
  apply N; auto. intros ? ? ?. cbn [cells next freed app].
  apply N; auto. intros ? ? ?. cbn [cells next freed app].
  repeat (eapply steps_cons; [exact I|reflexivity|reflexivity|]; cbn [set put kill cells next dead made freed]). constructor.
Qed.

Theorem C47_new : forall E D s, env_ok E -> box_lasts E (test_new E D) s -> std_ok D ->
  pointer_width (cfg (tgt E)) <= 60 -> box_passes E (test_new E D) s.
Proof.
  intros E D s He Hm [[S1 S2] [V1 V2] _ _ _] Hw. pose proof (eo_target _ He) as Ht.
  apply (proj1 (narrow _ (proj1 Ht))) in Hw.
  destruct (eo_tuples _ He [ty_u32; ty_bool; ty_usizes]) as [T1 T2]; [repeat (constructor; [auto with wf|]); constructor|].
  assert (One : forall t v, has_type t v -> hval_ok (leaf_hty t) [v]) by (intros; repeat constructor; apply H).
  apply four_boxes; [exact He|exact Hm| |].
  - constructor; [|constructor; [|constructor; [|constructor; [|constructor]]]]; cbn [fst snd].
    + split; [apply leaf_legal, wf_usize|]. split; [apply One, usize_ok|]. apply quotient. lia.
    + split; [exact T1|]. split; [|apply quotient; lia].
      unfold hval_ok. rewrite T2. constructor; [apply u32_ok|]. constructor; [apply boolean_ok|]. constructor; [|constructor].
      split; vm_compute; reflexivity.
    + split; [apply leaf_legal, wf_string|]. split; [apply One, S1|]. lia.
    + split; [apply leaf_legal, wf_vec_i32|]. split; [apply One, V1|exact Hw].
  - rewrite !hval_eqb_refl, <- S2, <- V2, String.eqb_refl, list_eqb_refl by (apply N.eqb_refl). reflexivity.
Qed.

(** Programs that store nothing but values without a size need no memory. *)
Lemma no_size_lasts E l : Forall (fun o => match o with NewBox _ U _ _ => h_size U = 0 | _ => True end) l ->
  forall c s, ~ In true (shortages E (straight l) c s).
Proof.
  induction 1 as [|o l Ho _ IH]; intros c s; cbn; [tauto|]. intros [H|H].
  - destruct o; try discriminate H. cbn in H. unfold no_block in H. rewrite Ho in H. discriminate H.
  - destruct (step E o c) as [m|]; [|exact H]. destruct (m s) as [[o0 ?] ?|? ?|?]; cbn in H;
      first [exact (IH _ _ H)|exact H|destruct o0; first [exact (IH _ _ H)|exact H]].
Qed.

Theorem C47_new_zst : forall E s, env_ok E ->
  box_passes E (test_new_zst E) s.
Proof.
  intros E s He. eapply box_test_passes; [exact He| | |].
  1: apply no_size_lasts; repeat constructor.
  - cbn [bt_calls test_new_zst].
    assert (V : forall t, ty_size t = 0 -> ty_align t = 1 -> ty_valid t [] = true ->
      layout_legal (leaf_hty t) /\ hval_ok (leaf_hty t) [[]]).
    { intros t H1 H2 H3. split.
      - apply leaf_legal. split; [exists 0; split; [lia|exact H2]|rewrite H1, H2; reflexivity].
      - constructor; [|constructor]. split; [cbn; rewrite H1; reflexivity|exact H3]. }
    eapply steps_cons; [split; [apply V; reflexivity|split; [apply V; reflexivity|apply N.le_0_l]]|reflexivity|reflexivity|].
    eapply steps_cons; [split; [apply V; reflexivity|split; [apply V; reflexivity|apply N.le_refl]]|reflexivity|reflexivity|].
    repeat (eapply steps_cons; [exact I|reflexivity|reflexivity|]). constructor.
  - reflexivity.
Qed.

(** ** Macro tests *)

Lemma macro_test_passes E def x I F m s : macro_setup E def x -> implements keeps def I F ->
  macro_lasts E def x I m s ->
  ksteps E def F (mt_calls m) ka0 (fun seen => mt_asserts m seen = true) -> macro_passes E x I m s.
Proof.
  intros Hs Hi Hm S. destruct (ksteps_facts _ _ _ _ _ _ S) as (Fo & K).
  destruct (C35_no_failure E def x I F _ s Hs Hi Fo Hm) as (c & s' & R).
  destruct (K (kmeanings E x I F (kstraight (mt_calls m)) s)) as (A & L & P); [intros n; eexists; reflexivity|].
  eexists _, c, s'. split; [exact R|]. auto.
Qed.

Lemma tests_setup E def x : env_ok E -> def_ok def -> expand def = Some x -> 56 <= pointer_width (cfg (tgt E)) ->
  macro_setup E def x.
Proof. intros He Hd Hx H8. constructor; auto. apply (C31_exact _ def x (proj1 (eo_target _ He)) Hx), H8. Qed.

Ltac kcells_of := cbn [kset kplace kfresh put kcells knext kdead kmade kboxes app].

(** One call: its contract, what it gives, and the variables after it. *)
Ltac kcall tac := cbn [ksteps]; intros ?; split; [tac|]; eexists _, _; split; [reflexivity|]; split; [reflexivity|]; kcells_of.

Lemma fits_by E def n i k : nth_error (e_variants def) i = Some (n, k) -> N.of_nat i <= max_discriminant (cfg (tgt E)) ->
  tag_fits E def n.
Proof. intros H L. exists i, k. auto. Qed.

Ltac known := cbn [kcontract]; intros; repeat match goal with
  | H : nth_error _ _ = Some _ |- _ => cbn in H; injection H; clear H; intros; subst; cbn [ev_variant ev_fields] end.

Theorem C47_container_into_inner : forall E x I F s, env_ok E -> macro_lasts E tests_item x I container_into_inner s ->
  implements keeps tests_item I F -> expand tests_item = Some x -> 56 <= pointer_width (cfg (tgt E)) ->
  macro_passes E x I container_into_inner s.
Proof.
  intros E x I F s He Hm Hi Hx H8. eapply macro_test_passes; [exact (tests_setup _ _ _ He tests_item_ok Hx H8)|exact Hi|exact Hm|].
  - assert (M1 : 1 <= max_discriminant (cfg (tgt E))).
    { pose proof (proj1 (eo_target _ He)) as Hc. revert Hc. apply (in_table (fun c => 1 <= max_discriminant c)).
      repeat (constructor; [vm_compute; discriminate|]). constructor. }
    cbn [mt_calls container_into_inner].
    kcall ltac:(split; [eexists; split; [left; reflexivity|constructor; [apply usize_ok|constructor]]|eapply (fits_by _ _ _ 0); [reflexivity|lia]]).
    kcall ltac:(exact Logic.I).
    kcall ltac:(split; [eexists; split; [right; left; reflexivity|repeat constructor]|eapply (fits_by _ _ _ 1); [reflexivity|exact M1]]).
    kcall ltac:(exact Logic.I). vm_compute. reflexivity.
Qed.

Lemma single_ok v : has_type ty_usize v -> evalue_ok tests_item (single v).
Proof. intros H. exists (KTuple [ty_usize]). split; [left; reflexivity|]. constructor; [exact H|constructor]. Qed.
Lemma many_ok a b f c : has_type ty_f32 f -> evalue_ok tests_item (many a b f c).
Proof.
  intros H. exists (KTuple [ty_usize; ty_usize; ty_f32; ty_usize]). split; [right; left; reflexivity|].
  constructor; [apply usize_ok|]. constructor; [apply usize_ok|]. constructor; [exact H|]. constructor; [apply usize_ok|constructor].
Qed.
Lemma unit_ok : evalue_ok tests_item unit_item.
Proof. exists KUnit. split; [right; right; left; reflexivity|constructor]. Qed.
Lemma orphan_ok i b : evalue_ok tests_item (orphan i b).
Proof.
  exists (KStruct [("int", ty_u32); ("boolean", ty_bool)]%string). split; [do 3 right; left; reflexivity|].
  constructor; [apply u32_ok|]. constructor; [apply boolean_ok|constructor].
Qed.

Definition item_values (a : leafval) (b c : N) (f : leafval) (d i : N) (t : bool) : list evalue :=
  [single a; many b c f d; unit_item; orphan i t].

(** The four kinds of values stored one after the other, each used in some way without a contract. *)
Lemma each_steps E F a b c f d i t (use : nat -> kop) : 3 <= max_discriminant (cfg (tgt E)) -> has_type ty_usize a -> has_type ty_f32 f ->
  use = KIntoInner \/ use = KView \/
    use = KFromTagged /\ readable_as (reprC [ty_usize; ty_usize; ty_f32; ty_usize]) (tuple_layout E [ty_usize; ty_usize; ty_f32; ty_usize]) ->
  ksteps E tests_item F (each (item_values a b c f d i t) use) ka0
    (fun seen => seen = List.concat (map (fun v => [KNothing; KNothing; KSawValues [v]]) (item_values a b c f d i t))).
Proof.
  intros M Ha Hf Hu. unfold each, item_values. cbn [List.length seq combine map fst snd List.concat app].
  assert (T : forall tt0 st0 j, kcontract E tests_item (F tt0) st0 (use j)).
  { intros tt0 st0 j. destruct Hu as [->|[->|[-> R]]]; [exact I|exact I|].
    intros id loc v k _ Hin Hk. cbn in Hin. intuition try discriminate;
      match goal with H : (_, _) = _ |- _ => injection H as _ <- end; cbn in Hk; try lia; try contradiction. exact R. }
  assert (Sees : forall st0 j id v, nth_error (kcells st0) j = Some (KABox id (kboxes st0 - 1) v) ->
     exists st1, (forall tt0, kastep tests_item (F tt0) false (use j) st0 = Some (KSawValues [v], st1)) /\
       List.length (kcells st1) = List.length (kcells st0)).
  { intros st0 j id v H. destruct Hu as [->|[->|[-> _]]]; cbn [kastep]; rewrite H; eexists; (split; [intros _; reflexivity|]); cbn;
      try reflexivity; clear; generalize (kcells st0) j; induction l as [|y l IH]; intros [|k]; cbn; auto. }
  assert (One : forall st0 v n, List.length (kcells st0) = n -> evalue_ok tests_item v -> tag_fits E tests_item (ev_variant v) ->
     exists st1, List.length (kcells st1) = S n /\ forall r Q, ksteps E tests_item F r st1 (fun seen => Q (KNothing :: KNothing :: KSawValues [v] :: seen)) ->
       ksteps E tests_item F (KNew v :: KFrom n :: use n :: r) st0 Q).
  { intros st0 v n Hn Hv Ht.
    assert (N1 : forall y : kacell, nth_error (kcells st0 ++ [y]) n = Some y).
    { intros y. rewrite nth_error_app2 by lia. rewrite Hn, Nat.sub_diag. reflexivity. }
    pose (st1 := KAState (kcells st0 ++ [KAVal (knext st0) v]) (S (knext st0)) (kdead st0) (kmade st0) (kboxes st0)).
    assert (P : forall y z : kacell, put n z (kcells st0 ++ [y]) = kcells st0 ++ [z]).
    { intros y z. rewrite <- Hn. clear. induction (kcells st0) as [|q l IH]; cbn; [reflexivity|]. rewrite IH. reflexivity. }
    pose (st2 := snd (kstore tests_item false (Some n) (knext st0) v st1)).
    assert (K : kstore tests_item false (Some n) (knext st0) v st1 = (KNothing, st2)).
    { unfold st2, kstore. rewrite andb_false_r. reflexivity. }
    assert (Q : kcells st2 = kcells st0 ++ [KABox (knext st0) (kboxes st0) v] /\ kboxes st2 = S (kboxes st0)).
    { unfold st2, kstore. rewrite andb_false_r. cbn [snd kcells kboxes kplace st1]. rewrite P. auto. }
    destruct Q as [Q1 Q2].
    destruct (Sees st2 n (knext st0) v) as (st3 & A & L).
    { rewrite Q1, N1, Q2. cbn. rewrite Nat.sub_0_r. reflexivity. }
    exists st3. split; [rewrite L, Q1, app_length; cbn; lia|].
    intros r O H. cbn [ksteps]. intros t1. split; [exact Hv|]. eexists _, st1. split; [reflexivity|]. split; [reflexivity|].
    intros t2. split.
    { intros id w Hw. unfold st1 in Hw. cbn [kcells] in Hw. rewrite N1 in Hw. injection Hw as _ <-. exact Ht. }
    exists KNothing, st2. split; [cbn [kastep]; unfold st1 at 1; cbn [kcells]; rewrite N1, K; reflexivity|]. split; [reflexivity|].
    intros t3. split; [apply T|]. exists (KSawValues [v]), st3. split; [apply A|]. split; [reflexivity|exact H]. }
  destruct (One ka0 (single a) 0%nat eq_refl (single_ok _ Ha)) as (s1 & L1 & H1); [eapply (fits_by _ _ _ 0); [reflexivity|lia]|].
  destruct (One s1 (many b c f d) 1%nat L1 (many_ok _ _ _ _ Hf)) as (s2 & L2 & H2); [eapply (fits_by _ _ _ 1); [reflexivity|cbn; lia]|].
  destruct (One s2 unit_item 2%nat L2 unit_ok) as (s3 & L3 & H3); [eapply (fits_by _ _ _ 2); [reflexivity|cbn; lia]|].
  destruct (One s3 (orphan i t) 3%nat L3 (orphan_ok i t)) as (s4 & L4 & H4); [eapply (fits_by _ _ _ 3); [reflexivity|cbn; lia]|].
  apply H1, H2, H3, H4. reflexivity.
Qed.

Lemma four_tags c : In c table -> (3 <= max_discriminant c <-> pointer_width c <= 62) /\ (7 <= max_discriminant c <-> pointer_width c <= 61).
Proof.
  revert c. apply in_table. repeat (constructor; [vm_compute; intuition (congruence || discriminate)|]). constructor.
Qed.

Theorem C47_item_tests : forall E x I F s, env_ok E ->
  implements keeps tests_item I F -> expand tests_item = Some x -> 56 <= pointer_width (cfg (tgt E)) <= 62 ->
  (macro_lasts E tests_item x I inner_into_tagged_box s -> macro_passes E x I inner_into_tagged_box s) /\
  (macro_lasts E tests_item x I inner_ref_from_tagged_box s -> macro_passes E x I inner_ref_from_tagged_box s) /\
  (let tys := [ty_usize; ty_usize; ty_f32; ty_usize] in
   readable_as (reprC tys) (tuple_layout E tys) ->
   macro_lasts E tests_item x I inner_from_tagged_box s -> macro_passes E x I inner_from_tagged_box s).
Proof.
  intros E x I F s He Hi Hx [H8 H62]. pose proof (tests_setup _ _ _ He tests_item_ok Hx H8) as Hs.
  apply (proj1 (four_tags _ (proj1 (eo_target _ He)))) in H62.
  split; [intros Hm|split; [intros Hm|intros tys R Hm]]; (eapply macro_test_passes; [exact Hs|exact Hi|exact Hm|];
    eapply ksteps_weak).
  - apply (each_steps E F usize_max 100 200 fifty 300 10 false KIntoInner H62 (usize_ok _) (f32_ok _)); tauto.
  - intros seen ->. vm_compute. reflexivity.
  - apply (each_steps E F usize_max 1200 233 five_hundred 34 0 false KView H62 (usize_ok _) (f32_ok _)); tauto.
  - intros seen ->. vm_compute. reflexivity.
  - apply (each_steps E F usize_max 12200 23300 five_hundred 34400 10000 true KFromTagged H62 (usize_ok _) (f32_ok _)); tauto.
  - intros seen ->. vm_compute. reflexivity.
Qed.

Theorem C47_wrapped : forall E x I F s, env_ok E -> macro_lasts E tests_item x I wrapped_refs_from_tagged_box s ->
  implements keeps tests_item I F -> expand tests_item = Some x -> 56 <= pointer_width (cfg (tgt E)) ->
  macro_passes E x I wrapped_refs_from_tagged_box s.
Proof.
  intros E x I F s He Hm Hi Hx H8. eapply macro_test_passes; [exact (tests_setup _ _ _ He tests_item_ok Hx H8)|exact Hi|exact Hm|].
  - cbn [mt_calls wrapped_refs_from_tagged_box].
    assert (T : tag_fits E tests_item "SingleTuple") by (eapply (fits_by _ _ _ 0); [reflexivity|lia]).
    assert (V : forall st0 j, (forall id loc v, nth_error (kcells st0) j = Some (KABox id loc v) -> ev_variant v = "SingleTuple"%string) ->
      forall tt0, kcontract E tests_item (F tt0) st0 (KFromTagged j)).
    { intros st0 j H tt0 id loc v k Hv Hin Hk. apply H in Hv. rewrite Hv in Hin. cbn in Hin. intuition try discriminate.
      match goal with H : (_, _) = _ |- _ => injection H as <- end. cbn in Hk. lia. }
    kcall ltac:(apply single_ok, usize_ok).
    kcall ltac:(known; exact T).
    kcall ltac:(apply single_ok, usize_ok).
    kcall ltac:(known; exact T).
    kcall ltac:(exact Logic.I).
    kcall ltac:(exact Logic.I).
    kcall ltac:(apply V; known; reflexivity).
    kcall ltac:(apply V; known; reflexivity).
    vm_compute. reflexivity.
Qed.

Theorem C47_storage : forall E D x I F s, env_ok E -> macro_lasts E storage_enum x I (test_storage D) s -> std_ok D ->
  implements keeps storage_enum I F -> expand storage_enum = Some x -> 56 <= pointer_width (cfg (tgt E)) <= 61 ->
  macro_passes E x I (test_storage D) s.
Proof.
  intros E D x I F s He Hm [_ _ [V1 V2] _ _] Hi Hx [H8 H61].
  apply (proj2 (four_tags _ (proj1 (eo_target _ He)))) in H61.
  eapply macro_test_passes; [exact (tests_setup _ _ _ He storage_enum_ok Hx H8)|exact Hi|exact Hm|].
  - cbn [mt_calls test_storage map seq nth_error List.concat app].
    assert (P : forall i n t v src, nth_error (e_variants storage_enum) i = Some (n, KTuple [t]) -> N.of_nat i <= 7 ->
      payload_variant storage_enum src = Some n -> has_type t v ->
      forall tt0 st0, kcontract E storage_enum (F tt0) st0 (KFromPayload src [v])).
    { intros i n t v src Hn Hi7 Hp Hv tt0 st0. cbn [kcontract]. rewrite Hp. split.
      - exists (KTuple [t]). split; [eapply nth_error_In; exact Hn|constructor; [exact Hv|constructor]].
      - apply (fits_by _ _ _ i (KTuple [t])); [exact Hn|lia]. }
    kcall ltac:(eapply (P 0%nat); [reflexivity|lia|reflexivity|apply f32_ok]). kcall ltac:(exact Logic.I). kcall ltac:(exact Logic.I).
    kcall ltac:(eapply (P 1%nat); [reflexivity|lia|reflexivity|apply i32_ok]). kcall ltac:(exact Logic.I). kcall ltac:(exact Logic.I).
    kcall ltac:(eapply (P 2%nat); [reflexivity|lia|reflexivity|split; reflexivity]). kcall ltac:(exact Logic.I). kcall ltac:(exact Logic.I).
    kcall ltac:(eapply (P 4%nat); [reflexivity|lia|reflexivity|apply boolean_ok]). kcall ltac:(exact Logic.I). kcall ltac:(exact Logic.I).
    kcall ltac:(eapply (P 5%nat); [reflexivity|lia|reflexivity|split; vm_compute; reflexivity]). kcall ltac:(exact Logic.I). kcall ltac:(exact Logic.I).
    kcall ltac:(eapply (P 6%nat); [reflexivity|lia|reflexivity|exact V1]). kcall ltac:(exact Logic.I). kcall ltac:(exact Logic.I).
    kcall ltac:(eapply (P 7%nat); [reflexivity|lia|reflexivity|split; vm_compute; reflexivity]). kcall ltac:(exact Logic.I). kcall ltac:(exact Logic.I).
    cbn [ksteps mt_asserts test_storage]. cbn -[f32 u32 custom_struct value_eqb leaf_eqb]. rewrite <- V2, list_eqb_refl by (apply N.eqb_refl). vm_compute. reflexivity.
Qed.

Lemma hello_differs : String.eqb "Hello" ("Hello" ++ ", World!") = false. Proof. reflexivity. Qed.

Theorem C47_clone : forall E D x I F s, env_ok E -> macro_lasts E clone_enum x I (test_clone D) s -> std_ok D ->
  implements keeps clone_enum I F -> clones D F -> expand clone_enum = Some x -> 56 <= pointer_width (cfg (tgt E)) ->
  macro_passes E x I (test_clone D) s.
Proof.
  intros E D x I F s He Hm [_ _ _ [S1 S2] Pu] Hi [F1 F2] Hx H8.
  apply (macro_test_passes E clone_enum x I F _ s); [exact (tests_setup _ _ _ He clone_enum_ok Hx H8)|exact Hi|exact Hm|].
  - assert (M1 : 1 <= max_discriminant (cfg (tgt E))).
    { pose proof (proj1 (eo_target _ He)) as Hc. revert Hc. apply (in_table (fun c => 1 <= max_discriminant c)).
      repeat (constructor; [vm_compute; discriminate|]). constructor. }
    assert (T0 : tag_fits E clone_enum "Usize") by (eapply (fits_by _ _ _ 0); [reflexivity|lia]).
    assert (T1 : tag_fits E clone_enum "Str") by (eapply (fits_by _ _ _ 1); [reflexivity|exact M1]).
    assert (U0 : forall v, has_type ty_usize v -> evalue_ok clone_enum (EV "Usize" [v])).
    { intros v Hv. exists (KTuple [ty_usize]). split; [left; reflexivity|]. constructor; [exact Hv|constructor]. }
    assert (U1 : forall v, has_type ty_string v -> evalue_ok clone_enum (EV "Str" [v])).
    { intros v Hv. exists (KTuple [ty_string]). split; [right; left; reflexivity|]. constructor; [exact Hv|constructor]. }
    assert (FT : forall tt0 st0 j, kcontract E clone_enum (F tt0) st0 (KFromTagged j)).
    { intros tt0 st0 j id loc v k Hv Hin Hk. cbn in Hin. intuition try discriminate;
        match goal with H : (_, _) = _ |- _ => injection H as _ <- end; cbn in Hk; lia. }
    cbn [mt_calls test_clone]. pose proof (usize_ok 100) as Hn. remember (usize 100) as n eqn:En.
    kcall ltac:(split; [apply U0, Hn|exact T0]).
    cbn [ksteps]. intros ta. split.
    { cbn. intros id loc v c Hv. injection Hv as _ _ <-. rewrite F1. intros Hc. injection Hc as <-. exact T0. }
    eexists _, _. split; [cbn; rewrite F1; reflexivity|]. split; [reflexivity|]. kcells_of.
    kcall ltac:(exact Logic.I).
    kcall ltac:(known; exact T0).
    kcall ltac:(known; split; [reflexivity|apply U0, usize_ok]).
    kcall ltac:(apply FT).
    kcall ltac:(exact Logic.I).
    kcall ltac:(split; [apply U1, S1|exact T1]).
    cbn [ksteps]. intros tb. destruct (F2 tb _ S1) as (cl & Fc & C1 & C2). rewrite S2 in C2. split.
    { cbn. intros id loc v c Hv. injection Hv as _ _ <-. rewrite Fc. intros Hc. injection Hc as <-. exact T1. }
    eexists _, _. split; [cbn; rewrite Fc; reflexivity|]. split; [reflexivity|]. kcells_of.
    kcall ltac:(exact Logic.I).
    kcall ltac:(known; exact T1).
    kcall ltac:(known; split; [reflexivity|apply U1, Pu; [exact C1|exact C2]]).
    kcall ltac:(apply FT).
    kcall ltac:(exact Logic.I).
    kcall ltac:(exact Logic.I).
    kcall ltac:(exact Logic.I).
    kcall ltac:(exact Logic.I).
    kcall ltac:(exact Logic.I).
    cbn -[usize times100 leaf_eqb String.eqb]. destruct (Pu _ C1 C2) as [P1 P2]. rewrite P2, S2. subst n. vm_compute. reflexivity.
Qed.

(** Storing a leaf value: it works, or memory is out. *)
Lemma store_leaf E ty v d s : env_ok E -> wf_ty ty -> ty_size ty <> 0 -> has_type ty v -> d <= max_discriminant (cfg (tgt E)) ->
  (exists s1, tb_new E (leaf_hty ty) [v] d s = Panicked PanicNullAlloc s1) \/
  exists w s1, tb_new E (leaf_hty ty) [v] d s = Ok w s1 /\ keeps s s1 /\ tb_discriminant E w = d /\
    forall s2, keeps s1 s2 -> tb_as_ref E (leaf_hty ty) w s2 = Ok [v] s2 /\
      read_at (leaf_hty ty) (tb_as_ptr E w) s2 = Ok [v] s2 /\ tb_into_inner E (leaf_hty ty) w s2 = Ok [v] s2.
Proof.
  intros He Hw Hz Hv Hd.
  assert (Hl : layout_legal (leaf_hty ty)) by (apply leaf_legal, Hw).
  assert (Hval : hval_ok (leaf_hty ty) [v]) by (repeat constructor; apply Hv).
  destruct (tb_new_spec E (eo_target _ He) (eo_alloc _ He) _ _ d s (eo_fits _ He) Hl Hval Hd)
    as [(Z & _) | [(_ & _ & R) | (Z & p & w & Hp & R & D & _ & _ & B)]].
  - exfalso. apply Hz, Z.
  - left. eauto.
  - right. exists w, (stored (leaf_hty ty) p [v] s). split; [exact R|]. split.
    + apply (stored_keeps E); try assumption. apply (eo_alloc _ He).
    + split; [exact D|]. intros s2 K.
      pose proof (box_holds_keeps E _ _ _ _ _ Hl K B) as (B0 & B1 & B2). auto.
Qed.

Theorem C47_tagged_box : forall E s, env_ok E -> lasts (test_tagged_box E) s -> passes (test_tagged_box E) s.
Proof.
  intros E s He Hm. pose proof (proj1 (eo_target _ He)) as Hc.
  assert (M1 : 1 <= max_discriminant (cfg (tgt E))).
  { revert Hc. apply (in_table (fun c => 1 <= max_discriminant c)). repeat (constructor; [vm_compute; discriminate|]). constructor. }
  pose proof (store_leaf E ty_i32 (le_bytes 4 110) 0) as Si. pose proof (store_leaf E ty_bool (boolean true) 1) as Sb.
  specialize (fun s => Si s He wf_i32 ltac:(discriminate) (i32_ok _) ltac:(lia)).
  specialize (fun s => Sb s He wf_bool ltac:(discriminate) (boolean_ok _) M1).
  unfold lasts, passes, test_tagged_box, tb_clone, tv_taggable in *. cbn [ref_from_tagged_box into_tagged_box] in *.
  unfold tv_ref, tv_from, tv_into in *. unfold bind in *.
  destruct (Si s) as [(s1 & R)|(wi & s1 & Ri & _ & Di & Bi)]; [exfalso; rewrite R in Hm; exact (Hm _ eq_refl)|]. rewrite Ri in *.
  destruct (Sb s1) as [(s2 & R)|(wb & s2 & Rb & K12 & Db & Bb)]; [exfalso; rewrite R in Hm; exact (Hm _ eq_refl)|].
  pose proof (keeps_refl) as KR.
  rewrite Rb in *. rewrite Di, Db in *. cbn [N.eqb Pos.eqb check ret] in *.
  rewrite (proj1 (Bi s2 K12)), hval_eqb_refl in *. cbn [check ret] in *.
  rewrite (proj1 (Bb s2 (KR _))), hval_eqb_refl in *. cbn [check ret] in *.
  rewrite (proj1 (proj2 (Bi s2 K12))) in *. cbn [ret only] in *.
  destruct (Si s2) as [(s3 & R)|(ci & s3 & Rci & K23 & Dci & Bci)]; [exfalso; rewrite R in Hm; exact (Hm _ eq_refl)|].
  pose proof (keeps_trans _ _ _ K12 K23) as K13.
  rewrite Rci, Dci, (proj2 (proj2 (Bci s3 (KR _)))) in *. cbn [ret only test_value_eqb] in *. rewrite leaf_eqb_refl in *. cbn [check ret] in *.
  rewrite (proj1 (proj2 (Bb s3 K23))) in *. cbn [ret only] in *.
  destruct (Sb s3) as [(s4 & R)|(cb & s4 & Rcb & K34 & Dcb & Bcb)]; [exfalso; rewrite R in Hm; exact (Hm _ eq_refl)|].
  pose proof (keeps_trans _ _ _ K13 K34) as K14. pose proof (keeps_trans _ _ _ K23 K34) as K24. clear Hm.
  rewrite Rcb, Dcb, (proj2 (proj2 (Bcb s4 (KR _)))). cbn [ret only test_value_eqb]. rewrite leaf_eqb_refl. cbn [check ret].
  rewrite (proj2 (proj2 (Bi s4 K14))). cbn [ret only test_value_eqb]. rewrite leaf_eqb_refl. cbn [check ret].
  rewrite (proj2 (proj2 (Bb s4 K24))). cbn [ret only test_value_eqb]. rewrite leaf_eqb_refl. eexists. reflexivity.
Qed.

(** ** The whole suite *)

Lemma expands def : In def [clone_enum; storage_enum; tests_item; variants_compile] -> exists x, expand def = Some x.
Proof.
  intros H. destruct (expand def) as [x|] eqn:R; [eauto|exfalso]. cbn in H.
  destruct H as [<-|[<-|[<-|[<-|[]]]]]; vm_compute in R; discriminate.
Qed.

Lemma C47_compiles c : In c table -> (suite_compiles c <-> 56 <= pointer_width c).
Proof.
  intros Hc. unfold suite_compiles. split.
  - intros H. inversion H as [|d l (x & Hx & T) _]. subst. exact (proj1 (C31_exact _ _ _ Hc Hx) T).
  - intros H. apply Forall_forall. intros def Hd. destruct (expands def Hd) as [x Hx].
    exists x. split; [exact Hx|]. exact (proj2 (C31_exact _ _ _ Hc Hx) H).
Qed.

Theorem C47_suite : forall E D P I1 I2 I3 F1 F2 F3 s, surroundings E D P I1 I2 I3 F1 F2 F3 s ->
  (suite_compiles (cfg (tgt E)) /\ suite_passes E D P I1 I2 I3 s <->
   if debug_assertions (tgt E) then 56 <= pointer_width (cfg (tgt E)) <= 60 else pointer_width (cfg (tgt E)) = 56).
Proof.
  intros E D P I1 I2 I3 F1 F2 F3 s [He _ [Mt Mn Mc Ms Mi] Hs Hp H1 H1' H2 H3 Ht].
  pose proof (eo_target _ He) as Htg. pose proof (proj1 Htg) as Hc. rewrite (C47_compiles _ Hc).
  pose proof (C47_tagged_pointer E s (int_at P) Htg (sl_int _ _ _ Hp)) as T.
  pose proof (C47_oversized (tgt E) s Htg) as O.
  split.
  - intros (L & Ps & Sp & _). apply O in Sp.
    assert (L' : pointer_width (cfg (tgt E)) <= 60).
    { apply T. rewrite Forall_forall in Ps. apply Ps. right. left. reflexivity. }
    destruct (debug_assertions (tgt E)); [auto|]. destruct Sp as [Sp|[Sp|Sp]]; [discriminate|exact Sp|]. rewrite Sp in L. lia.
  - intros L.
    assert (W : 56 <= pointer_width (cfg (tgt E)) <= 60) by (destruct (debug_assertions (tgt E)); [exact L|rewrite L; lia]).
    split; [lia|]. unfold suite_passes. cbn zeta.
    pose proof (C47_pointer_tests E s P Htg Hp) as PT. rewrite Forall_forall in PT.
    split; [|split; [|split; [|split; [|split]]]].
    + apply Forall_forall. intros m Hin. cbn [In] in Hin. cbn [In] in PT.
      destruct Hin as [<-|[<-|[<-|[<-|[<-|[<-|[<-|[<-|[]]]]]]]]]; [apply PT; tauto|apply T; lia| | | | | |apply C47_tagged_box; assumption];
        apply PT; tauto.
    + apply O. destruct (debug_assertions (tgt E)); auto.
    + constructor; [apply C47_new; auto; lia|]. constructor; [apply C47_new_zst; auto|constructor].
    + intros x Hx. eapply C47_clone; eauto. lia.
    + intros x Hx. eapply C47_storage; eauto. lia.
    + intros x Hx. specialize (Mi x Hx). rewrite Forall_forall in Mi. cbn [In] in Mi.
      destruct (C47_item_tests E x I3 F3 s He H3 Hx ltac:(lia)) as (A & B & C).
      repeat apply Forall_cons; [|apply A|apply (C Ht)|apply B| |constructor]; try (apply Mi; tauto).
      * eapply C47_container_into_inner; [exact He|apply Mi; tauto|exact H3|exact Hx|lia].
      * eapply C47_wrapped; [exact He|apply Mi; tauto|exact H3|exact Hx|lia].
Qed.

(** Of the ten settings the makefile tests, two pass; [cargo make] builds the tests in the debug profile. *)
Theorem C47_makefile : forall f E D P I1 I2 I3 F1 F2 F3 s, In f makefile_settings ->
  selected (Some f) = Some (cfg (tgt E)) -> debug_assertions (tgt E) = true -> surroundings E D P I1 I2 I3 F1 F2 F3 s ->
  (suite_compiles (cfg (tgt E)) /\ suite_passes E D P I1 I2 I3 s <-> f = "56bits"%string \/ f = "57bits"%string).
Proof.
  intros f E D P I1 I2 I3 F1 F2 F3 s Hf Hs Hd Hsu. rewrite (C47_suite _ _ _ _ _ _ _ _ _ _ Hsu), Hd.
  generalize dependent (cfg (tgt E)). intros c Hs. cbn in Hf.
  repeat destruct Hf as [<-|Hf]; [..|destruct Hf]; vm_compute in Hs; injection Hs as <-; cbn [pointer_width];
    (split; [intros H|intros [H|H]]); (discriminate H || lia || tauto).
Qed.

(** ** Surroundings that meet the assumptions: every table row, both profiles *)

(** Strings and vectors are three words, pointer, capacity and length; their contents are told from
    the length, a clone has another pointer. *)
Definition three_words (p n : N) : leafval := le_bytes 8 p ++ le_bytes 8 n ++ le_bytes 8 n.
Definition plain_std : std_data :=
  StdData (fun v => match number (skipn 16 v) with 5 => "Hello" | 12 => "Hello world!" | 13 => "Hello, World!" | _ => "" end)%string
    (fun v => match number (skipn 16 v) with 6 => [1; 2; 3; 4; 5; 6] | 10 => repeat 100 10 | _ => [] end)
    (three_words 0x7000 12) (three_words 0x7100 12) (three_words 0x7200 6) (three_words 0x7300 6)
    (three_words 0x7400 10) (three_words 0x7500 10) (three_words 0x7600 5)
    (fun v => firstn 8 v ++ le_bytes 8 13 ++ le_bytes 8 13).

Lemma all_init_app v w : all_init (v ++ w) = all_init v && all_init w.
Proof. unfold all_init. apply forallb_app. Qed.
Lemma all_init_cut n v : all_init v = true -> all_init (firstn n v) = true /\ all_init (skipn n v) = true.
Proof. intros H. rewrite <- (firstn_skipn n v), all_init_app in H. apply andb_true_iff in H. exact H. Qed.

Lemma skip_twice {A} n m (l : list A) : skipn m (skipn n l) = skipn (n + m) l.
Proof. revert l. induction n as [|n IH]; intros l; [reflexivity|]. destruct l; [rewrite !skipn_nil; reflexivity|apply IH]. Qed.

(** The clone of a string: another pointer. *)
Definition moved (v : leafval) : leafval := le_bytes 8 0x7700 ++ skipn 8 v.

Lemma moved_ok v : has_type ty_string v -> has_type ty_string (moved v) /\ text plain_std (moved v) = text plain_std v.
Proof.
  intros [L V]. cbn [ty_size ty_valid ty_string] in *. unfold str_valid in V. apply andb_true_iff in V. destruct V as [V _].
  unfold moved. split; [split|].
    + rewrite app_length, skipn_length, L. reflexivity.
    + cbn [ty_valid ty_string]. unfold str_valid. rewrite all_init_app, (proj2 (all_init_cut 8 v V)). reflexivity.
    + assert (X : skipn 16 (le_bytes 8 0x7700 ++ skipn 8 v) = skipn 16 v).
      { rewrite skipn_app, (skipn_all2 (le_bytes 8 0x7700)) by (vm_compute; lia). exact (skip_twice 8 8 v). }
      cbn [text plain_std]. rewrite X. reflexivity.
Qed.

Lemma plain_std_ok : std_ok plain_std.
Proof.
  constructor; cbn [text items hello_world hello_world' six six' hundreds hundreds' hello push_world plain_std];
    try (vm_compute; repeat split; reflexivity).
  - intros v [L V] _. cbn [ty_size ty_valid ty_string] in *. unfold str_valid in V. apply andb_true_iff in V. destruct V as [V V'].
    assert (L8 : List.length (firstn 8 v) = 8%nat) by (rewrite firstn_length, L; reflexivity).
    split; [split|].
    + rewrite app_length, L8. reflexivity.
    + cbn [ty_valid ty_string]. unfold str_valid. rewrite all_init_app, (proj1 (all_init_cut 8 v V)).
      rewrite firstn_app, L8, Nat.sub_diag, firstn_O, app_nil_r, firstn_firstn. change (Nat.min 8 8) with 8%nat. rewrite V'. reflexivity.
    + rewrite skipn_app, L8, (skipn_all2 (firstn 8 v)) by lia. reflexivity.
Qed.

(** The derived [Clone] of [Enum]; the other traits are not used by the tests. *)
Definition cloning : meaning :=
  Meaning (fun v => Done (match v with EV "Str" [f] => EV "Str" [moved f] | _ => v end)) (m_eq item_meaning)
    (m_pcmp item_meaning) (m_cmp item_meaning) (m_debug item_meaning) (m_display item_meaning).

Lemma cloning_implements : implements keeps clone_enum (pure_impls cloning) (fun _ => cloning).
Proof.
  eapply implements_weak; [|apply pure_implements]; [intros s s' H; apply H|].
  intros v c (k & Hin & Hf) Hc. cbn in Hin. unfold evalue_ok.
  destruct v as [n fs]. cbn [ev_variant ev_fields] in *. destruct Hin as [H|[H|[]]]; injection H as <- <-; cbn in Hf.
  - inversion Hf as [|f ? l ? Hv Hn]; subst. inversion Hn; subst. cbn in Hc. injection Hc as <-. exists (KTuple [ty_usize]).
    split; [left; reflexivity|]. repeat constructor; apply Hv.
  - inversion Hf as [|f ? l ? Hv Hn]; subst. inversion Hn; subst. cbn [m_clone cloning] in Hc. injection Hc as <-. exists (KTuple [ty_string]).
    split; [right; left; reflexivity|]. constructor; [|constructor]. apply moved_ok, Hv.
Qed.

Lemma identity_implements def : implements keeps def (pure_impls item_meaning) (fun _ => item_meaning).
Proof. eapply implements_weak; [|apply pure_implements; item_clones]. intros s s' H. apply H. Qed.

(** The stack of the tests: three blocks below the heap. *)
Definition stack : st :=
  St (store (store (store (fun _ => Undef) 4096 (le_bytes 4 100)) 4104 (usize 100)) 4112 (map Byte [72;101;108;108;111;32;119;111;114;108;100;33]))
    [Block 4096 4 4; Block 4104 8 8; Block 4112 12 1] [].

(** Running the tests from there for every target: memory lasts. *)
Definition none_true (l : list bool) : bool := negb (existsb (fun b => b) l).
Lemma none_true_sound l : none_true l = true -> ~ In true l.
Proof.
  unfold none_true. intros H Hin. apply negb_true_iff in H. assert (X : existsb (fun b => b) l = true) by (apply existsb_exists; eauto).
  congruence.
Qed.

Definition expanded (def : edef) (f : expansion -> bool) : bool := match expand def with Some x => f x | None => true end.
Lemma expanded_sound def f x : expanded def f = true -> expand def = Some x -> f x = true.
Proof. unfold expanded. intros H R. rewrite R in H. exact H. Qed.

Definition plenty (E : env) : bool :=
  let D := plain_std in let I := pure_impls item_meaning in
  (match test_tagged_box E stack with Panicked PanicNullAlloc _ => false | _ => true end &&
   none_true (shortages E (straight (bt_calls (test_new E D))) [] stack) &&
   expanded clone_enum (fun x => none_true (kshortages E clone_enum x (pure_impls cloning) (kstraight (mt_calls (test_clone D))) [] stack)) &&
   expanded storage_enum (fun x => none_true (kshortages E storage_enum x I (kstraight (mt_calls (test_storage D))) [] stack)) &&
   expanded tests_item (fun x => forallb (fun m => none_true (kshortages E tests_item x I (kstraight (mt_calls m)) [] stack))
     [container_into_inner; inner_into_tagged_box; inner_from_tagged_box; inner_ref_from_tagged_box; wrapped_refs_from_tagged_box]))%bool.

Definition stack_slots : slots := Slots 4096 4104 4112 (map Byte [72;101;108;108;111;32;119;111;114;108;100;33]).

Lemma plenty_everywhere t : In (cfg t) table -> ptr_bits t = 64 -> plenty (bump_env t) = true.
Proof.
  destruct t as [c d b]. cbn [cfg ptr_bits]. intros Hc ->.
  assert (H : forallb (fun c => plenty (bump_env (Target c true 64)) && plenty (bump_env (Target c false 64))) table = true)
    by (vm_compute; reflexivity).
  rewrite forallb_forall in H. specialize (H c Hc). apply andb_true_iff in H. destruct d; apply H.
Qed.

Theorem C47_surroundings : forall t, In (cfg t) table -> ptr_bits t = 64 ->
  surroundings (bump_env t) plain_std stack_slots (pure_impls cloning) (pure_impls item_meaning) (pure_impls item_meaning)
    (fun _ => cloning) (fun _ => item_meaning) (fun _ => item_meaning) stack.
Proof.
  intros t Hc H64. pose proof (plenty_everywhere t Hc H64) as H. unfold plenty in H. cbn zeta in H.
  repeat (apply andb_true_iff in H; destruct H as [H ?]).
  constructor; [apply bump_env_ok; split; [exact Hc|right; exact H64]|exact H64| |apply plain_std_ok| |apply cloning_implements| | | |].
  - constructor.
    + intros s' R. rewrite R in H. discriminate H.
    + apply none_true_sound. assumption.
    + intros x Hx. apply none_true_sound, (expanded_sound _ _ x H2 Hx).
    + intros x Hx. apply none_true_sound, (expanded_sound _ _ x H1 Hx).
    + intros x Hx. apply Forall_forall. intros m Hm. apply none_true_sound. revert m Hm. apply forallb_forall.
      exact (expanded_sound _ _ x H0 Hx).
  - assert (W : 4112 <= max_pointer_value (cfg t) /\ 4112 < 2 ^ ptr_bits t).
    { rewrite H64. split; [|vm_compute; reflexivity]. revert Hc. apply (in_table (fun c => 4112 <= max_pointer_value c)).
      repeat (constructor; [vm_compute; discriminate|]). constructor. }
    constructor; (split; [cbn [tgt bump_env int_at usize_at text_at stack_slots]; lia|]; split;
      [cbn [tgt bump_env int_at usize_at text_at stack_slots]; lia|reflexivity]).
  - split; intros t0 v; [reflexivity|]. intros Hv. exists (moved v). split; [reflexivity|]. apply moved_ok, Hv.
  - apply identity_implements.
  - apply identity_implements.
  - cbn zeta. repeat split; reflexivity || (vm_compute; discriminate).
Qed.

(** In the default setting a debug build passes, a release build does not; with 48 bits neither compiles. *)
Example C47_example :
  (suite_compiles cfg60 /\
   suite_passes (bump_env dbg60) plain_std stack_slots (pure_impls cloning) (pure_impls item_meaning) (pure_impls item_meaning) stack) /\
  ~ (suite_compiles cfg60 /\
   suite_passes (bump_env rel60) plain_std stack_slots (pure_impls cloning) (pure_impls item_meaning) (pure_impls item_meaning) stack) /\
  ~ suite_compiles cfg48.
Proof.
  assert (H60 : In cfg60 table) by (cbn; tauto). assert (H48 : In cfg48 table) by (cbn; tauto).
  split; [|split].
  - apply (C47_suite _ _ _ _ _ _ _ _ _ _ (C47_surroundings dbg60 H60 eq_refl)). cbn. lia.
  - intros H. apply (C47_suite _ _ _ _ _ _ _ _ _ _ (C47_surroundings rel60 H60 eq_refl)) in H. discriminate H.
  - rewrite (C47_compiles _ H48). cbn. lia.
Qed.

(** The two settings of the makefile that pass. *)
Example C47_makefile_example : forall f, f = "56bits"%string \/ f = "57bits"%string ->
  exists t, In f makefile_settings /\ selected (Some f) = Some (cfg t) /\ debug_assertions t = true /\
    surroundings (bump_env t) plain_std stack_slots (pure_impls cloning) (pure_impls item_meaning) (pure_impls item_meaning)
      (fun _ => cloning) (fun _ => item_meaning) (fun _ => item_meaning) stack.
Proof.
  intros f Hf. assert (X : exists c, selected (Some f) = Some c /\ In c table).
  { destruct Hf as [-> | ->]; eexists; (split; [vm_compute; reflexivity|vm_compute; tauto]). }
  destruct X as (c & Hs & Hc). exists (Target c true 64). split; [destruct Hf as [-> | ->]; vm_compute; tauto|].
  split; [exact Hs|]. split; [reflexivity|]. apply C47_surroundings; [exact Hc|reflexivity].
Qed.

(** ** Instances: each theorem applied to a concrete case that meets its hypotheses *)

(** A debug build in the default setting; [stack] as the state. *)
Lemma here60 : surroundings (bump_env dbg60) plain_std stack_slots (pure_impls cloning) (pure_impls item_meaning) (pure_impls item_meaning)
    (fun _ => cloning) (fun _ => item_meaning) (fun _ => item_meaning) stack.
Proof. apply C47_surroundings; [cbn; tauto|reflexivity]. Qed.

Lemma some_expansion def : expand def <> None -> exists x, expand def = Some x.
Proof. destruct (expand def) as [x|]; [eauto|intros H; elim H; reflexivity]. Qed.

(** The 61-bit setting. *)
Definition cfg61 : config := Config "tagged_box_reserve_61bits" 8 7 61 3.

Example C47_tagged_pointer_example : passes (tagged_pointer dbg60 4096) stack /\ ~ passes (tagged_pointer (Target cfg61 true 64) 4096) stack.
Proof.
  split.
  - apply (C47_tagged_pointer (bump_env dbg60)); [apply (eo_target _ (su_env _ _ _ _ _ _ _ _ _ _ here60))| |vm_compute; discriminate].
    apply (sl_int _ _ _ (su_slots _ _ _ _ _ _ _ _ _ _ here60)).
  - pose proof (C47_surroundings (Target cfg61 true 64) ltac:(cbn; tauto) eq_refl) as S.
    intros H. apply (C47_tagged_pointer (bump_env (Target cfg61 true 64))) in H;
      [vm_compute in H; elim H; reflexivity|apply (eo_target _ (su_env _ _ _ _ _ _ _ _ _ _ S))|apply (sl_int _ _ _ (su_slots _ _ _ _ _ _ _ _ _ _ S))].
Qed.

Example C47_pointer_tests_example : passes (string_pointer dbg60 4112 (text_bytes stack_slots)) stack.
Proof.
  pose proof (C47_pointer_tests (bump_env dbg60) stack stack_slots (eo_target _ (su_env _ _ _ _ _ _ _ _ _ _ here60))
    (su_slots _ _ _ _ _ _ _ _ _ _ here60)) as H.
  exact (proj1 (Forall_forall _ _) H _ (or_intror (or_intror (or_intror (or_intror (or_intror (or_introl eq_refl))))))).
Qed.

Example C47_oversized_example : should_panic (oversized_discriminant dbg60) stack /\ ~ should_panic (oversized_discriminant rel60) stack.
Proof.
  split; [|intros H]; [|apply C47_oversized in H; [|apply example_targets_ok]].
  - apply C47_oversized; [apply example_targets_ok|left; reflexivity].
  - destruct H as [H|[H|H]]; vm_compute in H; discriminate H.
Qed.

Example C47_new_example : box_passes (bump_env dbg60) (test_new (bump_env dbg60) plain_std) stack.
Proof.
  destruct here60 as [HE _ M D _ _ _ _ _ _]. apply C47_new; [exact HE|apply M|exact D|vm_compute; discriminate].
Qed.

(** No memory is needed. *)
Example C47_new_zst_example : box_passes (Env dbg60 no_memory reprC) (test_new_zst (Env dbg60 no_memory reprC)) st0.
Proof.
  apply C47_new_zst. destruct (su_env _ _ _ _ _ _ _ _ _ _ here60) as [A _ _ D].
  split; [exact A|apply no_memory_ok|apply no_memory_ok|exact D].
Qed.

Example C47_container_into_inner_example : exists x, expand tests_item = Some x /\
  macro_passes (bump_env dbg60) x (pure_impls item_meaning) container_into_inner stack.
Proof.
  destruct (some_expansion tests_item) as [x X]; [vm_compute; discriminate|]. exists x. split; [exact X|].
  destruct here60 as [HE _ M _ _ _ _ _ K _]. apply (C47_container_into_inner _ _ _ _ _ HE) with (2 := K); [|exact X|vm_compute; discriminate].
  exact (proj1 (Forall_forall _ _) (ml_item _ _ _ _ _ _ M x X) _ (or_introl eq_refl)).
Qed.

Example C47_item_tests_example : exists x, expand tests_item = Some x /\
  macro_passes (bump_env dbg60) x (pure_impls item_meaning) inner_into_tagged_box stack /\
  macro_passes (bump_env dbg60) x (pure_impls item_meaning) inner_ref_from_tagged_box stack /\
  macro_passes (bump_env dbg60) x (pure_impls item_meaning) inner_from_tagged_box stack.
Proof.
  destruct (some_expansion tests_item) as [x X]; [vm_compute; discriminate|]. exists x. split; [exact X|].
  destruct here60 as [HE _ M _ _ _ _ _ K T].
  pose proof (proj1 (Forall_forall _ _) (ml_item _ _ _ _ _ _ M x X)) as L.
  destruct (C47_item_tests _ _ _ _ stack HE K X) as (A & B & C); [vm_compute; split; discriminate|].
  split; [apply A, L; cbn; tauto|]. split; [apply B, L; cbn; tauto|apply C; [exact T|apply L; cbn; tauto]].
Qed.

Example C47_wrapped_example : exists x, expand tests_item = Some x /\
  macro_passes (bump_env dbg60) x (pure_impls item_meaning) wrapped_refs_from_tagged_box stack.
Proof.
  destruct (some_expansion tests_item) as [x X]; [vm_compute; discriminate|]. exists x. split; [exact X|].
  destruct here60 as [HE _ M _ _ _ _ _ K _]. apply (C47_wrapped _ _ _ _ _ HE) with (2 := K); [|exact X|vm_compute; discriminate].
  apply (proj1 (Forall_forall _ _) (ml_item _ _ _ _ _ _ M x X)). cbn; tauto.
Qed.

Example C47_clone_example : exists x, expand clone_enum = Some x /\
  macro_passes (bump_env dbg60) x (pure_impls cloning) (test_clone plain_std) stack.
Proof.
  destruct (some_expansion clone_enum) as [x X]; [vm_compute; discriminate|]. exists x. split; [exact X|].
  destruct here60 as [HE _ M D _ K C _ _ _].
  apply (C47_clone _ _ _ _ _ _ HE (ml_clone _ _ _ _ _ _ M x X) D K C X). vm_compute; discriminate.
Qed.

Example C47_storage_example : exists x, expand storage_enum = Some x /\
  macro_passes (bump_env dbg60) x (pure_impls item_meaning) (test_storage plain_std) stack.
Proof.
  destruct (some_expansion storage_enum) as [x X]; [vm_compute; discriminate|]. exists x. split; [exact X|].
  destruct here60 as [HE _ M D _ _ _ K _ _].
  apply (C47_storage _ _ _ _ _ _ HE (ml_storage _ _ _ _ _ _ M x X) D K X). vm_compute; split; discriminate.
Qed.

Example C47_tagged_box_example : passes (test_tagged_box (bump_env dbg60)) stack.
Proof. destruct here60 as [HE _ M _ _ _ _ _ _ _]. apply (C47_tagged_box _ _ HE), M. Qed.

Print Assumptions C47_suite.
Print Assumptions C47_makefile.
Print Assumptions C47_surroundings.
