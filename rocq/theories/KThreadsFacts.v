(** The invariant behind property C64: a block written once is never changed again; between getting a block and
    returning the container, a thread is the only one to use it. *)
From Coq Require Import Arith ZArith NArith String Bool List Lia.
From Verif Require Import Words Config Spec ConfigFacts Pointer PointerFacts Fmt Mem SpecMem MemFacts Box BoxFacts
  Arms Macro SpecMacro MacroFacts Props_Pointer Props_Box Props_Macro Props_Layout Props_Clone Session SpecSession SessionFacts
  Threads SpecThreads Containers SpecContainers KThreads SpecKThreads.
From Verif Require Props_Containers ThreadsFacts.
Import ListNotations.
Local Open Scope N_scope.
Local Open Scope list_scope.

(** ** The code is that of [Containers.v] *)

Definition map_res {A B} (h : A -> B) (r : res A) : res B :=
  match r with Ok a s => Ok (h a) s | Panicked p s => Panicked p s | UB u => UB u end.

Lemma map_res_bind {A B} (h : A -> B) (m : M A) s : map_res h (m s) = bind m (fun a => ret (h a)) s.
Proof. unfold bind, ret. destruct (m s); reflexivity. Qed.

Lemma map_res_exit {A B} (h : A -> B) b ev (m : M A) s : map_res h (at_exit b ev m s) = at_exit b ev (fun t => map_res h (m t)) s.
Proof. unfold at_exit. destruct b; [|reflexivity]. destruct (m s); reflexivity. Qed.

Section Denote.
Variables (E : env) (x : expansion).

Lemma kdenote_bind {A B} (m : kcode A) (f : A -> kcode B) : forall s, kdenote E (kc_bind m f) s = bind (kdenote E m) (fun a => kdenote E (f a)) s.
Proof.
  induction m as [a|p|u|X a k IH]; intros s; cbn [kc_bind kdenote]; try reflexivity.
  unfold bind. destruct (run_kact E a s) as [y s'| |]; [|reflexivity..]. rewrite IH. reflexivity.
Qed.

Lemma kdenote_lift {A} (m : code A) : forall s, kdenote E (lift m) s = denote E m s.
Proof.
  induction m as [a|p|X a k IH]; intros s; cbn [lift kdenote denote]; try reflexivity.
  unfold bind. cbn [run_kact]. destruct (run_act E a s); [|reflexivity..]. apply IH.
Qed.


Lemma run_act_quiet {X} (a : act X) s p s' : run_act E a s <> Panicked p s'.
Proof.
  destruct a; cbn [run_act].
  - unfold alloc. destruct (alloc_fn E s size align); discriminate.
  - unfold read_at, check_access, bind, ret. destruct (p0 =? 0); [discriminate|]. destruct (negb _); [discriminate|].
    destruct (negb _); [discriminate|]. destruct (read_fields _ _ _); discriminate.
  - unfold write_at, check_access, bind, ret. destruct (p0 =? 0); [discriminate|]. destruct (negb _); [discriminate|].
    destruct (negb _); discriminate.
  - unfold dealloc. destruct (existsb _ _); discriminate.
  - discriminate.
Qed.

Lemma run_kact_quiet {X} (a : kact X) s p s' : run_kact E a s <> Panicked p s'.
Proof. destruct a; cbn [run_kact]; [apply run_act_quiet|destruct (m s); discriminate|discriminate]. Qed.

Lemma kdenote_exit {A} b ev (m : kcode A) : forall s, kdenote E (kc_exit b ev m) s = at_exit b ev (kdenote E m) s.
Proof.
  destruct b; [|reflexivity]. cbn [kc_exit]. induction m as [a|p|u|X a k IH]; intros s; cbn [kc_finally kdenote]; try reflexivity.
  unfold at_exit, bind in *. destruct (run_kact E a s) eqn:R; [apply IH|destruct (run_kact_quiet _ _ _ _ R)|reflexivity].
Qed.

Lemma kdenote_user {A} (m : M A) s : kdenote E (kc_user m) s = m s.
Proof. unfold kc_user. cbn [kdenote]. unfold bind. cbn [run_kact]. destruct (m s); reflexivity. Qed.

Lemma c_new_denotes U vs d s : denote E (c_new E U vs d CRet) s = tb_new E U vs d s.
Proof.
  unfold tb_new, c_new. destruct (h_size U =? 0); [reflexivity|].
  cbn [denote]. unfold bind. cbn [run_act]. destruct (alloc (alloc_fn E) (h_size U) (h_align U) s) as [[p|] s1| |]; [|reflexivity..].
  cbn [denote]. unfold bind. cbn [run_act]. destruct (write_at U p vs s1) as [[] s2| |]; [|reflexivity..].
  destruct (tp_new (tgt E) p d); reflexivity.
Qed.

Lemma at_exit_cong {A} b ev (m m' : M A) s : m s = m' s -> at_exit b ev m s = at_exit b ev m' s.
Proof. unfold at_exit. intros ->. reflexivity. Qed.

Lemma kdenote_into v s : kdenote E (kc_into E x v) s = macro_into E x v s.
Proof.
  unfold kc_into, macro_into. rewrite kdenote_exit. apply at_exit_cong. unfold into_plan, bind, resolved.
  destruct (find_into _ _) as [a|]; [|reflexivity]. cbn [ret].
  destruct (bind_pattern _ _ _) as [binds|]; [|reflexivity]. cbn [ret].
  destruct (eval_tag _ _) as [tag|]; [|reflexivity]. cbn [ret].
  destruct (ia_body a) as [t arg|tys args|ms lit|]; cbn [run_into_body]; unfold bind, resolved, ret.
  - destruct (lookup_all _ _); [|reflexivity]. cbn [option_map]. rewrite kdenote_lift. apply c_new_denotes.
  - destruct (lookup_all _ _); [|reflexivity]. cbn [option_map]. rewrite kdenote_lift. apply c_new_denotes.
  - destruct (lookup_all lit binds) as [vals|]; [|reflexivity]. destruct (lookup_all _ (combine lit vals)); [|reflexivity]. cbn [option_map].
    rewrite kdenote_lift. apply c_new_denotes.
  - reflexivity.
Qed.

Lemma kdenote_from_payload f vals s : kdenote E (kc_from_payload E x f vals) s = container_from_payload E x f vals s.
Proof.
  destruct f as [t v|tys v idx]; cbn [kc_from_payload container_from_payload]; [apply kdenote_into|].
  unfold bind, resolved. destruct (project vals idx); [apply kdenote_into|reflexivity].
Qed.

Lemma match_disc_pick {A} d arms (body : read_arm -> M A) (default : M A) s : match_disc x d arms body default s =
  match pick x d arms with None => UB UbIllTyped | Some None => default s | Some (Some a) => body a s end.
Proof.
  induction arms as [|a r IH]; [reflexivity|]. cbn [match_disc pick]. unfold bind, resolved at 1.
  destruct (eval_tag x (ra_tag a)) as [tag|]; [|reflexivity]. cbn [ret]. destruct (d =? tag); [reflexivity|exact IH].
Qed.

Lemma kdenote_build p v b s : kdenote E (kc_build E x p v b) s = run_build E x (fun H => read_at H p) v b s.
Proof.
  unfold kc_build. destruct b as [| |t|tys idx|tys idx|ms pat lit]; cbn [reads run_build kdenote]; try reflexivity;
    unfold bind; cbn [run_kact run_act]; destruct (read_at _ p s) as [got s1| |]; try reflexivity;
    unfold assemble, resolved.
  - destruct (project_seq got idx); reflexivity.
  - destruct (project got idx); reflexivity.
  - destruct (lookup_all pat _) as [bound|]; [|reflexivity]. cbn [ret option_map]. destruct (lookup_all lit _) as [vals|]; [|reflexivity]. cbn [ret option_map].
    destruct (lookup_all _ _); reflexivity.
Qed.

Lemma kdenote_match {A} w arms (body : read_arm -> kcode A) q (body' : read_arm -> M A) s :
  (forall a s, kdenote E (body a) s = body' a s) ->
  kdenote E (kc_match E x w arms body q) s = match_disc x (tb_discriminant E w) arms body' (raise q) s.
Proof.
  intros H. rewrite match_disc_pick. unfold kc_match. destruct (pick x _ arms) as [[a|]|]; [apply H|reflexivity..].
Qed.

Lemma kdenote_into_inner w s : kdenote E (kc_into_inner E x w) s = macro_into_inner E x w s.
Proof. apply kdenote_match. intros a s'. apply kdenote_build. Qed.

Lemma kdenote_from_tagged w s : kdenote E (kc_from_tagged E x w) s = macro_from E x w s.
Proof. apply kdenote_match. intros a s'. apply kdenote_build. Qed.

(** Looking with a closure that keeps its result in the captured variable. *)
Lemma kdenote_look {A S} w (cb : evalue -> kcode A) (h : A -> S) callback c s :
  (forall v s, callback v c s = map_res h (kdenote E (cb v) s)) ->
  macro_ref E x S w callback c s = map_res h (kdenote E (kc_look E x w cb) s).
Proof.
  intros H. unfold macro_ref, kc_look, kc_match. rewrite match_disc_pick. destruct (pick x _ _) as [[a|]|]; [|reflexivity..].
  rewrite kdenote_bind. unfold bind. rewrite kdenote_build. destruct (run_build _ _ _ _ _ s) as [v s1| |]; [|reflexivity..].
  rewrite kdenote_exit, map_res_exit. apply at_exit_cong. apply H.
Qed.

End Denote.

(** A call as a list of accesses, run without interruption, does what the call of [Containers.v] does; and one compiles
    exactly when the other does. *)
Definition kput {A} (o : kop) (z : A) (c : list A) : list A :=
  match kresult o with Nowhere => c | There i => put i z c | Anew => c ++ [z] end.

Theorem kcalls (E : env) (x : expansion) (I : impls) (o : kop) (c : list kcell) :
  match kstep E x I o c, kc_call E x I o c with
  | Some m, Some j =>
      (forall s, m s = match kdenote E j s with
                       | Ok (r, z) s' => Ok (r, kput o z c) s'
                       | Panicked p s' => Panicked p s'
                       | UB u => UB u
                       end) /\
      (forall s p s', kdenote E j s = Panicked p s' -> kafter_panic o c = kput o KGone c)
  | Some _, None => considered o = false
  | None, None => True
  | None, Some _ => False
  end.
Proof.
  assert (D2 : forall A a b (f : evalue -> evalue -> M A) c0 s,
    macro_ref E x A a (fun this z => macro_ref E x A b (fun other _ => f this other) z) c0 s =
    kdenote E (kc_look E x a (fun v => kc_look E x b (fun w => kc_user (f v w)))) s).
  { intros A a b f c0 s. rewrite (kdenote_look E x a (fun v => kc_look E x b (fun w => kc_user (f v w))) (fun r => r)).
    - destruct (kdenote _ _ s); reflexivity.
    - intros v s1. apply (kdenote_look E x b (fun w => kc_user (f v w)) (fun r => r)). intros w s2. rewrite kdenote_user.
      destruct (f v w s2); reflexivity. }
  assert (D1 : forall A a (f : evalue -> M A) callback c0 s, (forall v s, callback v c0 s = f v s) ->
    macro_ref E x A a callback c0 s = kdenote E (kc_look E x a (fun v => kc_user (f v))) s).
  { intros A a f callback c0 s H. rewrite (kdenote_look E x a (fun v => kc_user (f v)) (fun r => r)).
    - destruct (kdenote _ _ s); reflexivity.
    - intros v s1. rewrite kdenote_user, H. destruct (f v s1); reflexivity. }
  destruct o as [v|i|src vals|i|i|i j|i j|i j|i o out|i o out|i o out|i|i|i n f|i n val|i|i|i|i]; cbn [kstep kc_call]; unfold kput; cbn [kresult].
  - split; [reflexivity|discriminate].
  - destruct (nth_error c i) as [[w|v|]|]; try exact Logic.I. split; [|reflexivity]. intros s. rewrite kdenote_bind. unfold bind.
    rewrite kdenote_into. unfold container_from. destruct (macro_into E x v s); reflexivity.
  - destruct (find _ (x_froms x)) as [f|]; [|exact Logic.I]. split; [|reflexivity]. intros s. rewrite kdenote_bind. unfold bind.
    rewrite kdenote_from_payload. destruct (container_from_payload E x f vals s); reflexivity.
  - destruct (nth_error c i) as [[w|v|]|]; cbn [with_box]; try exact Logic.I. split; [|reflexivity]. intros s. rewrite kdenote_bind. unfold bind at 1 2.
    rewrite kdenote_bind. unfold tb_clone, macro_taggable. cbn [ref_from_tagged_box into_tagged_box].
    unfold bind at 1 3. rewrite (kdenote_look E x w (fun v => kc_user (i_clone I v)) Some).
    + destruct (kdenote E (kc_look _ _ _ _) s) as [v s1| |]; [|reflexivity..]. cbn [map_res]. rewrite kdenote_into.
      destruct (macro_into E x v s1); reflexivity.
    + intros v s1. rewrite kdenote_user. symmetry. apply map_res_bind.
  - destruct (x_copy x); [|exact Logic.I]. destruct (nth_error c i) as [[w|v|]|]; cbn [with_box]; try exact Logic.I. split; [reflexivity|discriminate].
  - destruct (nth_error c i) as [[a|v|]|]; try exact Logic.I. destruct (nth_error c j) as [[b|v|]|]; try exact Logic.I. split; [|reflexivity].
    intros s. rewrite kdenote_bind. unfold bind. unfold tb_eq, macro_taggable. cbn [ref_from_tagged_box]. rewrite D2. destruct (kdenote _ _ s); reflexivity.
  - destruct (nth_error c i) as [[a|v|]|]; try exact Logic.I. destruct (nth_error c j) as [[b|v|]|]; try exact Logic.I. split; [|reflexivity].
    intros s. rewrite kdenote_bind. unfold bind. unfold tb_partial_cmp, macro_taggable. cbn [ref_from_tagged_box]. rewrite D2. destruct (kdenote _ _ s); reflexivity.
  - destruct (nth_error c i) as [[a|v|]|]; try exact Logic.I. destruct (nth_error c j) as [[b|v|]|]; try exact Logic.I. split; [|reflexivity].
    intros s. rewrite kdenote_bind. unfold bind. unfold tb_cmp, macro_taggable. cbn [ref_from_tagged_box]. rewrite D2. destruct (kdenote _ _ s); reflexivity.
  - destruct (nth_error c i) as [[w|v|]|]; cbn [with_box]; try exact Logic.I. split; [|reflexivity]. intros s. rewrite kdenote_bind.
    unfold container_debug, bind. unfold tb_debug, macro_taggable. cbn [ref_from_tagged_box].
    rewrite (D1 _ w (fun v => i_debug I default_opts v EmptyString)) by reflexivity.
    destruct (kdenote _ _ s) as [r s1| |]; [|reflexivity..]. cbn. destruct (derived_debug o (x_container x) "value" r). reflexivity.
  - destruct (nth_error c i) as [[w|v|]|]; cbn [with_box]; try exact Logic.I. split; [|reflexivity]. intros s. rewrite kdenote_bind.
    unfold bind. unfold tb_debug, macro_taggable. cbn [ref_from_tagged_box].
    rewrite (D1 _ w (fun v => i_debug I default_opts v out)) by reflexivity. destruct (kdenote _ _ s) as [r s1| |]; reflexivity.
  - destruct (nth_error c i) as [[w|v|]|]; cbn [with_box]; try exact Logic.I. split; [|reflexivity]. intros s. rewrite kdenote_bind.
    unfold bind. unfold tb_display, macro_taggable. cbn [ref_from_tagged_box].
    rewrite (D1 _ w (fun v => i_display I default_opts v out)) by reflexivity. destruct (kdenote _ _ s) as [r s1| |]; reflexivity.
  - destruct (nth_error c i) as [[w|v|]|]; cbn [with_box]; try exact Logic.I. split; [|reflexivity]. intros s. rewrite kdenote_bind. unfold bind.
    rewrite (kdenote_look E x w (fun v => KRet [v]) (fun r => r)) by reflexivity. destruct (kdenote _ _ s) as [r s1| |]; reflexivity.
  - destruct (nth_error c i) as [[w|v|]|]; cbn [with_box]; try exact Logic.I. split; reflexivity.
  - destruct (nth_error c i) as [[w|v|]|]; try exact Logic.I. destruct (leaf_type x n); [reflexivity|exact Logic.I].
  - destruct (nth_error c i) as [[w|v|]|]; try exact Logic.I. destruct (leaf_type x n); [reflexivity|exact Logic.I].
  - destruct (nth_error c i) as [[w|v|]|]; cbn [with_box]; try exact Logic.I. split; [|reflexivity]. intros s. rewrite kdenote_bind. unfold bind.
    rewrite kdenote_into_inner. destruct (macro_into_inner E x w s); reflexivity.
  - destruct (nth_error c i) as [[w|v|]|]; cbn [with_box]; try exact Logic.I. split; [|reflexivity]. intros s. rewrite kdenote_bind. unfold bind.
    rewrite kdenote_from_tagged. destruct (macro_from E x w s); reflexivity.
  - destruct (nth_error c i) as [[w|v|]|]; cbn [with_box]; try exact Logic.I. split; [reflexivity|discriminate].
  - destruct (nth_error c i) as [[w|v|]|]; try exact Logic.I. split; [reflexivity|discriminate].
Qed.
