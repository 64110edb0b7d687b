(** Property C56: interior mutability. *)
From Coq Require Import Arith NArith String Bool List Lia.
From Verif Require Import Words Config Spec SpecMem ConfigFacts Pointer PointerFacts Mem MemFacts Box BoxFacts Bump
  Macro SpecMacro MacroFacts Props_Pointer Props_Box Props_Unsound Props_Macro Props_Clone Nested Interior.
From Verif Require Props_Nested.
Import ListNotations.
Local Open Scope N_scope.

(** ** Spec: looks at a place, as with a [Box<Enum>] *)

(** The contents each look leaves are what the next one finds. *)
Fixpoint place_looks {S} (l : list (look S)) (v : evalue) (c : S) : M (S * evalue) :=
  match l with
  | [] => ret (c, v)
  | f :: l => bind (f v c) (fun '(c, v) => place_looks l v c)
  end.

(** Every look finds the same. *)
Fixpoint fixed_looks {S} (l : list (look S)) (v : evalue) (c : S) : M S :=
  match l with
  | [] => ret c
  | f :: l => bind (f v c) (fun '(c, _) => fixed_looks l v c)
  end.

(** ** What the macro's code does *)

Lemma match_disc_ext {A} x d arms (f g : read_arm -> M A) (h : M A) :
  (forall a s, f a s = g a s) -> forall s, match_disc x d arms f h s = match_disc x d arms g h s.
Proof.
  intros Hfg. induction arms as [|a arms IH]; intros s; [reflexivity|]. cbn [match_disc]. unfold bind.
  destruct (resolved (eval_tag x (ra_tag a)) s); try reflexivity. destruct (d =? a0); [apply Hfg|apply IH].
Qed.

(** The changes are thrown away. *)
Lemma macro_look_eq E x S w (f : look S) c s :
  macro_look E x S w f c s = macro_ref E x S w (fun v c => bind (f v c) (fun '(c, _) => ret c)) c s.
Proof.
  apply match_disc_ext. intros a s0. unfold bind at 1 3. destruct (run_build _ _ _ _ _ s0) as [v s1| |]; try reflexivity.
  unfold bind, at_exit. destruct (x_drop x && negb (ra_guarded a)); destruct (f v c s1) as [[c' v'] s2| |]; reflexivity.
Qed.

Section Looks.
Variables (E : env) (def : edef) (x : expansion).
Hypothesis Hs : macro_setup E def x.
Let Hd := ms_def _ _ _ Hs.
Let Hx := ms_expand _ _ _ Hs.
Let H8 := setup_u8 _ _ _ Hs.
Let He := ms_env _ _ _ Hs.

Lemma look_held S w v (f : look S) c s : boxed E def s w v -> no_own_drop def v ->
  macro_look E x S w f c s = bind (f v c) (fun '(c, _) => ret c) s.
Proof.
  intros B Q. rewrite macro_look_eq.
  exact (boxed_ref E def x Hd Hx H8 s w v S (fun v c => bind (f v c) (fun '(c, _) => ret c)) c B Q).
Qed.

(** Looks that keep the box's memory. *)
Definition harmless {S} (f : look S) : Prop := forall v c s r s', f v c s = Ok r s' -> keeps s s'.

Lemma looks_fixed S w v : no_own_drop def v -> forall (l : list (look S)) c s, Forall harmless l -> boxed E def s w v ->
  macro_looks E x w l c s = fixed_looks l v c s.
Proof.
  intros Q. induction l as [|f l IH]; intros c s Hl B; [reflexivity|]. inversion Hl as [|? ? Hf Hl']; subst.
  cbn [macro_looks fixed_looks]. unfold bind at 1. rewrite (look_held S w v f c s B Q). unfold bind, ret.
  destruct (f v c s) as [[c' v'] s'| |] eqn:R; try reflexivity. apply IH; [exact Hl'|].
  eapply boxed_keeps; [exact Hd|eapply Hf, R|exact B].
Qed.

End Looks.

(** *** Values with a buffer *)

Section Buffer.
Variable E : env.
Hypothesis He : env_ok E.
Variables (H : hty) (get : evalue -> N) (set : N -> evalue -> evalue).
Hypothesis Hl : layout_legal H.
Hypothesis Hz : h_size H <> 0.

Definition buffer (v : evalue) : block := Block (get v) (h_size H) (h_align H).

(** Live memory without the buffer of [v]. *)
Definition without (v : evalue) (s : st) : st := St (bytes s) (remove_block (buffer v) (blocks s)) (events s).

(** [v]'s buffer is live, holds [old], and overlaps no other block. *)
Definition owns (s : st) (v : evalue) (old : hval) : Prop :=
  In (buffer v) (blocks s) /\
  (forall b, In b (remove_block (buffer v) (blocks s)) -> get v + h_size H <= b_base b \/ b_base b + b_size b <= get v) /\
  read_at H (get v) s = Ok old s.

Lemma remove_incl b l : incl (remove_block b l) l.
Proof.
  intros b'. induction l as [|a l IH]; cbn [remove_block]; [tauto|]. destruct (block_eqb a b); cbn [In]; tauto.
Qed.

Lemma renew_spec vs v old s : hval_ok H vs -> owns s v old ->
  (renew E H get set vs v s = Panicked (PanicUser "memory allocation failed") s /\ alloc_fn E s (h_size H) (h_align H) = None) \/
  (exists p s', renew E H get set vs v s = Ok (set p v) s' /\ p <> 0 /\ p mod h_align H = 0 /\ p < 2 ^ ptr_bits (tgt E) /\
     blocks s' = Block p (h_size H) (h_align H) :: remove_block (buffer v) (blocks s) /\
     (forall b, In b (blocks s) -> p + h_size H <= b_base b \/ b_base b + b_size b <= p) /\
     keeps (without v s) s' /\ read_at H p s' = Ok vs s').
Proof.
  intros Hv (O1 & O2 & O3). 
  assert (Rn : renew E H get set vs v s = match alloc_fn E s (h_size H) (h_align H) with
    | None => Panicked (PanicUser "memory allocation failed") s
    | Some p => bind (write_at H p vs) (fun _ => bind (dealloc (get v) (h_size H) (h_align H)) (fun _ => ret (set p v)))
        (St (undef_range (bytes s) p (h_size H)) (Block p (h_size H) (h_align H) :: blocks s)
            (events s ++ [EvAlloc p (h_size H) (h_align H)])) end).
  { unfold renew, bind at 1. rewrite O3. unfold bind at 1, alloc. destruct (alloc_fn E s (h_size H) (h_align H)); reflexivity. }
  rewrite Rn. clear Rn.
  destruct (alloc_fn E s (h_size H) (h_align H)) as [p|] eqn:A; [right|left; auto].
  destruct (eo_alloc _ He s (h_size H) (h_align H) p ltac:(lia) (ll_align _ Hl) A) as (P1 & P2 & P4 & P3).
  assert (Acc : forall m l e, can_access (St m (Block p (h_size H) (h_align H) :: l) e) H p).
  { intros m l e. split; [exact P1|]. split; [exact P2|]. unfold accessible. cbn [blocks existsb]. unfold block_contains at 1.
    cbn [b_base b_size]. rewrite !N.leb_refl. apply orb_true_r. }
  unfold bind. rewrite write_at_eq by apply Acc. unfold dealloc. cbn [bytes blocks events].
  assert (Ex : existsb (fun y => block_eqb y (Block (get v) (h_size H) (h_align H))) (Block p (h_size H) (h_align H) :: blocks s) = true).
  { apply existsb_exists. exists (buffer v). split; [right; exact O1|]. apply block_eqb_eq. reflexivity. }
  rewrite Ex.
  assert (Ne : block_eqb (Block p (h_size H) (h_align H)) (buffer v) = false).
  { apply not_true_is_false. intros Q. apply block_eqb_eq in Q. injection Q as Q.
    destruct (P3 _ O1) as [G|G]; cbn [b_base b_size buffer] in G; lia. }
  cbn [remove_block]. fold (buffer v). rewrite Ne. cbn [ret]. eexists p, _. split; [reflexivity|]. split; [exact P1|]. split; [exact P2|].
  split; [lia|]. cbn [blocks bytes]. split; [reflexivity|]. split; [exact P3|]. split.
  - intros b Hb. cbn [blocks bytes without] in *. split; [right; exact Hb|]. intros y Hy. pose proof (P3 b (remove_incl _ _ b Hb)).
    rewrite write_mem_other by (auto; lia). unfold undef_range.
    destruct (N.leb_spec p y), (N.ltb_spec y (p + h_size H)); cbn; try reflexivity. lia.
  - rewrite read_at_eq by apply Acc. cbn [bytes]. rewrite read_write_mem by assumption. reflexivity.
Qed.

(** On a place: the new value owns its buffer again. *)
Lemma renew_owns vs v old s v' s' : hval_ok H vs -> (forall p, p < 2 ^ ptr_bits (tgt E) -> get (set p v) = p) -> owns s v old ->
  renew E H get set vs v s = Ok v' s' -> owns s' v' vs.
Proof.
  intros Hv Hg O R. destruct (renew_spec vs v old s Hv O) as [[R' _] | (p & s1 & R' & P1 & P2 & P3 & B & Dis & K & Rd)];
    rewrite R in R'; [discriminate|]. injection R' as -> ->. unfold owns, buffer. rewrite (Hg p P3), B, remove_block_head.
  split; [left; reflexivity|]. split; [|exact Rd]. intros b Hb. apply Dis. eapply remove_incl, Hb.
Qed.

(** The old one is freed memory. *)
Lemma renew_freed vs v old s v' s' : hval_ok H vs -> owns s v old -> renew E H get set vs v s = Ok v' s' ->
  read_at H (get v) s' = UB UbOutOfBlock /\ dealloc (get v) (h_size H) (h_align H) s' = UB UbBadDealloc.
Proof.
  intros Hv O R. destruct (renew_spec vs v old s Hv O) as [[R' _] | (p & s1 & R' & P1 & P2 & P3 & B & Dis & K & Rd)];
    rewrite R in R'; [discriminate|]. injection R' as -> ->. destruct O as (O1 & O2 & O3).
  assert (Far : forall b, In b (blocks s1) -> get v + h_size H <= b_base b \/ b_base b + b_size b <= get v).
  { rewrite B. intros b [<-|Hb]; [|apply O2, Hb]. cbn [b_base b_size].
    destruct (Dis _ O1) as [G|G]; cbn [b_base b_size buffer] in G; lia. }
  split.
  - pose proof (read_at_inv _ _ _ _ _ O3) as (_ & (N1 & N2 & _) & _). apply read_out_of_block; [exact N1|exact N2|].
    apply (not_accessible s1 _ (h_size H)); assumption.
  - unfold dealloc. destruct (existsb _ _) eqn:Ex; [exfalso|reflexivity]. apply existsb_exists in Ex as (b & Hb & Eb).
    apply block_eqb_eq in Eb. subst b. destruct (Far _ Hb) as [G|G]; cbn [b_base b_size] in G; lia.
Qed.
End Buffer.

(** A container just made from a value owning a buffer. *)
Lemma made_owning E def x H get v old s w s1 : macro_setup E def x -> evalue_fits E def v -> container_from E x v s = Ok w s1 ->
  layout_legal H -> h_size H <> 0 -> owns H get s v old ->
  owns H get s1 v old /\ boxed E def (without H get v s1) w v.
Proof.
  intros Hs [(k & Hin & Ht) Hfit] R Hl Hz (O1 & O2 & O3).
  pose proof (ms_def _ _ _ Hs) as Hd.
  destruct (container_from_fresh E def x v k s Hs Hin Ht Hfit) as [(w' & s1' & R' & K & B & Own & _) | (U & s1' & _ & _ & _ & R' & _)];
    rewrite R in R'; [|discriminate]. injection R' as <- <-.
  assert (Rd : read_at H (get v) s1 = Ok old s1) by (eapply read_at_keeps; [exact Hl|exact K|exact O3]).
  unfold own_block in Own.
  assert (Bl : blocks s1 = blocks s \/ exists U, storage k = Some U /\ h_size U <> 0 /\
     blocks s1 = Block (tb_as_ptr E w) (h_size U) (h_align U) :: blocks s /\
     forall b, In b (blocks s) -> tb_as_ptr E w + h_size U <= b_base b \/ b_base b + b_size b <= tb_as_ptr E w).
  { destruct (storage k) as [U|]; [|left; exact Own]. destruct (N.eqb_spec (h_size U) 0); [left; exact Own|right].
    exists U. destruct Own. auto. }
  assert (Ne : forall U, h_size U <> 0 -> (forall b, In b (blocks s) -> tb_as_ptr E w + h_size U <= b_base b \/ b_base b + b_size b <= tb_as_ptr E w) ->
     block_eqb (Block (tb_as_ptr E w) (h_size U) (h_align U)) (buffer H get v) = false).
  { intros U ZU F. apply not_true_is_false. intros Q. apply block_eqb_eq in Q. injection Q as Q1 Q2 Q3.
    destruct (F _ O1) as [G|G]; cbn [b_base b_size buffer] in G; lia. }
  split.
  - destruct Bl as [Bl | (U & _ & ZU & Bl & F)]; split; [rewrite Bl; exact O1| |rewrite Bl; right; exact O1|].
    + split; [rewrite Bl; exact O2|exact Rd].
    + split; [|exact Rd]. rewrite Bl. cbn [remove_block]. rewrite (Ne U ZU F). intros b [<-|Hb]; [|apply O2, Hb].
      cbn [b_base b_size]. destruct (F _ O1) as [G|G]; cbn [b_base b_size buffer] in G; lia.
  - destruct B as (i & k' & Hi & Tg & B). exists i, k'. split; [exact Hi|]. split; [exact Tg|].
    assert (k' = k) as ->.
    { pose proof (assoc_in _ _ _ (do_names _ Hd) (nth_error_In _ _ Hi)). pose proof (assoc_in _ _ _ (do_names _ Hd) Hin). congruence. }
    destruct (storage k) as [U|] eqn:Es; [|exact B].
    destruct (storage_legal k U (kind_types_wf _ _ _ Hd Hin) Es) as [HlU _].
    eapply (box_holds_addr E); [exact HlU|reflexivity|]. apply box_holds_inv in B.
    pose proof (read_at_inv _ _ _ _ _ B) as (_ & (N1 & N2 & N3) & Rf).
    rewrite read_at_eq.
    + cbn [bytes without]. rewrite Rf. reflexivity.
    + split; [exact N1|]. split; [exact N2|]. unfold accessible.
      destruct (N.eqb_spec (h_size U) 0) as [Z|Z]; [reflexivity|]. cbn [orb]. unfold own_block in Own.
      destruct Own as [Own F].
      cbn [blocks without]. rewrite Own. cbn [remove_block]. rewrite (Ne U Z F). cbn [existsb]. unfold block_contains at 1.
      cbn [b_base b_size]. change (tp_as_ptr (tgt E) w) with (tb_as_ptr E w). rewrite !N.leb_refl. reflexivity.
Qed.

(** ** The property *)

(** Every look finds the value first stored, whatever the looks before it did to theirs; and so does
    [into_inner]. *)
Theorem C56_lost E def x v s0 w s1 s S (l : list (look S)) c : macro_setup E def x -> evalue_fits E def v -> no_own_drop def v ->
  container_from E x v s0 = Ok w s1 -> keeps s1 s -> Forall harmless l ->
  macro_looks E x w l c s = fixed_looks l v c s /\
  (forall c' s', macro_looks E x w l c s = Ok c' s' -> macro_into_inner E x w s' = Ok v s').
Proof.
  intros Hs Hv Q R K Hl.
  destruct (container_from_cases E def x v s0 Hs Hv) as [(w1 & s1' & R1 & B & _) | (k' & U & s1' & H)].
  2: destruct H as (_ & _ & _ & _ & H & _); congruence.
  rewrite R in R1. injection R1 as <- <-.
  assert (B' : boxed E def s w v) by (eapply boxed_keeps; [apply Hs|exact K|exact B]).
  rewrite (looks_fixed E def x Hs S w v Q l c s Hl B'). split; [reflexivity|]. intros c' s' R'.
  apply (boxed_into_inner E def x (ms_def _ _ _ Hs) (ms_expand _ _ _ Hs) (setup_u8 _ _ _ Hs)).
  eapply boxed_keeps; [apply Hs| |exact B']. clear -R' Hl. revert c s R'. induction Hl as [|f l Hf _ IH]; intros c s R'.
  - injection R' as _ <-. apply keeps_refl.
  - cbn [fixed_looks] in R'. unfold bind in R'. destruct (f v c s) as [[c1 v1] s1| |] eqn:F; try discriminate.
    eapply keeps_trans; [eapply Hf, F|eapply IH, R'].
Qed.

(** So a change made in one look is not seen in the next, as it would be in a [Box] of the enum. *)
Definition put (v : evalue) : look (list evalue) := fun _ seen => ret (seen, v).
Definition get_all : look (list evalue) := fun v seen => ret (seen ++ [v], v).

Theorem C56_refuted E def x v v' s0 w s1 : macro_setup E def x -> evalue_fits E def v -> no_own_drop def v ->
  container_from E x v s0 = Ok w s1 ->
  macro_looks E x w [put v'; get_all] [] s1 = Ok [v] s1 /\
  place_looks [put v'; get_all] v [] s1 = Ok ([v'], v') s1.
Proof.
  intros Hs Hv Q R. split; [|reflexivity].
  assert (Hl : Forall harmless [put v'; get_all]).
  { constructor; [|constructor; [|constructor]]; intros a c s r s' G; injection G as _ <-; apply keeps_refl. }
  rewrite (proj1 (C56_lost E def x v s0 w s1 s1 _ _ [] Hs Hv Q R (keeps_refl s1) Hl)). reflexivity.
Qed.

(** A value that replaces a buffer it owns behind the reference is fine in a place: any number of
    replacements each find what the one before left. [K]: the values with such a buffer, whose address can
    be set. *)
Fixpoint swapped (H : hty) (first : hval) (l : list hval) : list hval :=
  match l with [] => [] | vs :: l => first :: swapped H vs l end.

Lemma swap_eq E H get set vs v old seen s : owns H get s v old -> swap E H get set vs v seen s =
  match renew E H get set vs v s with Ok v' s' => Ok (seen ++ [old], v') s' | Panicked p s' => Panicked p s' | UB u => UB u end.
Proof. intros O. unfold swap, bind. rewrite (proj2 (proj2 O)). reflexivity. Qed.

Lemma last_default {A} (h : A) l a b : last (h :: l) a = last (h :: l) b.
Proof. revert h. induction l as [|c l IH]; intros h; [reflexivity|]. apply (IH c). Qed.

Theorem C56_place E H get set (K : evalue -> Prop) l : env_ok E -> layout_legal H -> h_size H <> 0 -> Forall (hval_ok H) l ->
  (forall p v, K v -> p < 2 ^ ptr_bits (tgt E) -> get (set p v) = p /\ K (set p v)) ->
  forall v old s seen, K v -> owns H get s v old ->
  (exists v' s', place_looks (map (swap E H get set) l) v seen s = Ok (seen ++ swapped H old l, v') s' /\
     owns H get s' v' (last l old)) \/
  (exists s', place_looks (map (swap E H get set) l) v seen s = Panicked (PanicUser "memory allocation failed") s').
Proof.
  intros He Hl Hz Hv Hg. induction Hv as [|vs l Hvs Hv IH]; intros v old s seen Kv O.
  - left. exists v, s. cbn. rewrite app_nil_r. auto.
  - cbn [map place_looks]. unfold bind at 1 2. rewrite (swap_eq E H get set vs v old seen s O).
    destruct (renew_spec E He H get set Hl Hz vs v old s Hvs O) as [[R _] | (p & s1 & R & _ & _ & P & _)]; rewrite R; [right; eauto|].
    pose proof (renew_owns E He H get set Hl Hz vs v old s _ s1 Hvs (fun q Q => proj1 (Hg q v Kv Q)) O R) as O'.
    destruct (IH (set p v) vs s1 (seen ++ [old]) (proj2 (Hg p v Kv P)) O') as [(v' & s' & R' & O'') | (s' & R')]; [left|right; eauto].
    exists v', s'. rewrite R', <- app_assoc. split; [reflexivity|]. destruct l as [|h l]; [exact O''|].
    change (last (vs :: h :: l) old) with (last (h :: l) old). rewrite (last_default h l old vs). exact O''.
Qed.

(** In a container the value read afterwards still has the address of the freed buffer: using it is
    undefined behaviour, in the next look as well as after [into_inner]. *)
Theorem C56_dangling E def x H get set v old s0 w s1 vs : macro_setup E def x -> evalue_fits E def v -> no_own_drop def v ->
  container_from E x v s0 = Ok w s1 -> layout_legal H -> h_size H <> 0 -> hval_ok H vs -> owns H get s0 v old ->
  (macro_look E x (list hval) w (swap E H get set vs) [] s1 = Panicked (PanicUser "memory allocation failed") s1) \/
  (exists s2, macro_look E x (list hval) w (swap E H get set vs) [] s1 = Ok [old] s2 /\
     (forall vs', macro_look E x (list hval) w (swap E H get set vs') [old] s2 = UB UbOutOfBlock) /\
     macro_into_inner E x w s2 = Ok v s2 /\ read_at H (get v) s2 = UB UbOutOfBlock /\
     dealloc (get v) (h_size H) (h_align H) s2 = UB UbBadDealloc).
Proof.
  intros Hs Hv Q R Hl Hz Hvs O0. pose proof (ms_env _ _ _ Hs) as He.
  destruct (made_owning E def x H get v old s0 w s1 Hs Hv R Hl Hz O0) as [O B].
  assert (B1 : boxed E def s1 w v).
  { destruct (container_from_cases E def x v s0 Hs Hv) as [(w1 & s1' & R1 & B1 & _) | (k' & U & s1' & G)].
    - rewrite R in R1. injection R1 as <- <-. exact B1.
    - destruct G as (_ & _ & _ & _ & G & _). congruence. }
  rewrite (look_held E def x Hs _ w v _ [] s1 B1 Q). unfold bind. rewrite (swap_eq E H get set vs v old [] s1 O).
  destruct (renew_spec E He H get set Hl Hz vs v old s1 Hvs O) as [[Rn _] | (p & s2 & Rn & _ & _ & _ & _ & _ & K & _)];
    [left|right]; rewrite Rn; [reflexivity|].
  exists s2. split; [reflexivity|]. destruct (renew_freed E He H get set Hl Hz vs v old s1 _ s2 Hvs O Rn) as [F1 F2].
  assert (B2 : boxed E def s2 w v) by (eapply boxed_keeps; [apply Hs|exact K|exact B]).
  split; [|split; [|split; assumption]].
  - intros vs'. rewrite (look_held E def x Hs _ w v _ [old] s2 B2 Q). unfold bind, swap, bind. rewrite F1. reflexivity.
  - apply (boxed_into_inner E def x (ms_def _ _ _ Hs) (ms_expand _ _ _ Hs) (setup_u8 _ _ _ Hs)), B2.
Qed.

(** The same with safe code only: [==] with a [PartialEq] that renews the buffer of its left side, called
    twice. *)
Theorem C56_eq E def x H get set eqb v v2 old s w w2 vs r s' : macro_setup E def x -> no_own_drop def v -> no_own_drop def v2 ->
  boxed E def (without H get v s) w v -> boxed E def (without H get v s) w2 v2 ->
  layout_legal H -> h_size H <> 0 -> hval_ok H vs -> owns H get s v old ->
  tb_eq (macro_taggable E x) (eq_renewing E H get set eqb vs) w w2 s = Ok r s' ->
  tb_eq (macro_taggable E x) (eq_renewing E H get set eqb vs) w w2 s' = UB UbOutOfBlock.
Proof.
  intros Hs Q Q2 B B2 Hl Hz Hvs O R. pose proof (ms_env _ _ _ Hs) as He.
  assert (Eq : forall s, boxed E def s w v -> boxed E def s w2 v2 ->
     tb_eq (macro_taggable E x) (eq_renewing E H get set eqb vs) w w2 s = eq_renewing E H get set eqb vs v v2 s).
  { intros t Bt Bt2. unfold tb_eq. cbn [ref_from_tagged_box macro_taggable].
    rewrite (boxed_ref E def x (ms_def _ _ _ Hs) (ms_expand _ _ _ Hs) (setup_u8 _ _ _ Hs) t w v bool _ false Bt Q).
    apply (boxed_ref E def x (ms_def _ _ _ Hs) (ms_expand _ _ _ Hs) (setup_u8 _ _ _ Hs) t w2 v2 bool
      (fun other _ => eq_renewing E H get set eqb vs v other) false Bt2 Q2). }
  assert (K0 : keeps (without H get v s) s).
  { intros b Hb. split; [eapply remove_incl, Hb|reflexivity]. }
  rewrite Eq in R by (eapply boxed_keeps; [apply Hs|exact K0|assumption]).
  destruct (renew_spec E He H get set Hl Hz vs v old s Hvs O) as [[Rn _] | (p & s2 & Rn & _ & _ & _ & _ & _ & K & _)];
    unfold eq_renewing, bind in R; rewrite Rn in R; [discriminate|].
  assert (s' = s2).
  { destruct (read_at H (get (set p v)) s2) eqn:R1; try discriminate. apply read_at_inv in R1 as [-> _].
    destruct (read_at H (get v2) s2) eqn:R2; try discriminate. apply read_at_inv in R2 as [-> _]. injection R as _ <-. reflexivity. }
  subst s'. rewrite Eq by (eapply boxed_keeps; [apply Hs|exact K|assumption]).
  destruct (renew_freed E He H get set Hl Hz vs v old s _ s2 Hvs O Rn) as [F1 _].
  unfold eq_renewing, renew, bind. rewrite F1. reflexivity.
Qed.

(** ** An example: [struct Container, enum Item { Name(RefCell<Box<u32>>), Plain(u8) }] *)

Definition ty_cell : rty := Ty "RefCell<Box<u32>>" 16 8 (fun b => Nested.word_valid b && negb (Nested.dec (skipn 8 b) =? 0)) true false.
Definition cell_def : edef := Edef "Container" "Item" 8 false false [("Name", KTuple [ty_cell]); ("Plain", KTuple [ty_u8])]%string.
Definition cell_x : expansion :=
  match expand cell_def with Some x => x | None => Expansion "" "" 1 false false [] [] 0 [] [] [] [] [] end.
(** Borrow flag and pointer. *)
Definition cell_get (v : evalue) : N := match ev_fields v with [b] => Nested.dec (skipn 8 b) | _ => 0 end.
Definition cell_set (p : N) (v : evalue) : evalue :=
  EV (ev_variant v) (match ev_fields v with [b] => [firstn 8 b ++ Nested.enc p] | l => l end).
Definition cell_value (p : N) : evalue := EV "Name" [Nested.enc 0 ++ Nested.enc p].
Definition u32_box : hty := leaf_hty ty_u32.

Lemma cell_ok : def_ok cell_def.
Proof.
  constructor.
  - discriminate.
  - repeat constructor; cbn; intuition discriminate.
  - intros v ms H. cbn in H. intuition discriminate.
  - intros v tys H. cbn in H. intuition try discriminate;
      match goal with H : (_, KTuple _) = _ |- _ => injection H as <- <-; cbn; lia end.
  - cbn. constructor; [|constructor; [apply wf_u8|constructor]]. split; cbn; [exists 3; split; [lia|reflexivity]|reflexivity].
  - exists 3. split; [lia|reflexivity].
  - cbn. intuition discriminate.
  - discriminate.
  - cbn. repeat constructor; cbn; intros; try reflexivity; discriminate.
  - cbn. repeat constructor; cbn; intuition discriminate.
Qed.

Lemma cell_setup : macro_setup (bump_env dbg60) cell_def cell_x.
Proof. constructor; try reflexivity; [apply bump_env_ok, example_targets_ok|apply cell_ok]. Qed.

(** The state with a buffer holding 1 at 4096, and the value owning it. *)
Definition s_buffer : st := match bind (alloc bump 4 4) (fun p => match p with Some p => write_at u32_box p [le_bytes 4 1] | None => ret tt end) st0
                            with Ok _ s => s | _ => st0 end.

Lemma cell_owns : owns u32_box cell_get s_buffer (cell_value 4096) [le_bytes 4 1] /\ evalue_fits (bump_env dbg60) cell_def (cell_value 4096) /\
  no_own_drop cell_def (cell_value 4096) /\ cell_get (cell_set 5000 (cell_value 4096)) = 5000 /\
  (exists w s1, container_from (bump_env dbg60) cell_x (cell_value 4096) s_buffer = Ok w s1).
Proof.
  split; [|split; [|split; [left; reflexivity|split; [reflexivity|eexists _, _; vm_compute; reflexivity]]]].
  - split; [left; reflexivity|]. split; [intros b []|vm_compute; reflexivity].
  - split.
    + exists (KTuple [ty_cell]). split; [left; reflexivity|]. constructor; [split; vm_compute; reflexivity|constructor].
    + exists 0%nat, (KTuple [ty_cell]). split; [reflexivity|]. vm_compute. discriminate.
Qed.

(** Twice [*name.borrow_mut() = Box::new(..)] in two looks; the first alone returns the old contents. *)
Example C56_example : let E := bump_env dbg60 in
  let look n := swap E u32_box cell_get cell_set [le_bytes 4 n] in
  ub_of (bind (container_from E cell_x (cell_value 4096)) (fun w => macro_looks E cell_x w [look 2; look 3] []) s_buffer) = Some UbOutOfBlock /\
  result (bind (container_from E cell_x (cell_value 4096)) (fun w => macro_looks E cell_x w [look 2] []) s_buffer) = Some [[le_bytes 4 1]] /\
  option_map fst (result (place_looks [look 2; look 3; look 4] (cell_value 4096) [] s_buffer)) = Some [[le_bytes 4 1]; [le_bytes 4 2]; [le_bytes 4 3]] /\
  ub_of (bind (container_from E cell_x (cell_value 4096)) (fun a => bind (container_from E cell_x (EV "Plain" [[Byte 7]])) (fun b =>
         bind (macro_looks E cell_x b [put (EV "Plain" [[Byte 8]]); get_all] []) (fun seen =>
         match seen with [EV _ [[Byte 7]]] => macro_looks E cell_x a [look 2; look 3] [] | _ => ret [] end))) s_buffer) = Some UbOutOfBlock /\
  (* [a == b] once, and once more *)
  let eq a b := tb_eq (macro_taggable E cell_x) (eq_renewing E u32_box cell_get cell_set (fun y z => bytes_word (concat y) =? bytes_word (concat z)) [le_bytes 4 1]) a b in
  let two k := bind (alloc bump 4 4) (fun p => match p with None => raise (PanicUser "") | Some p =>
    bind (write_at u32_box p [le_bytes 4 1]) (fun _ => bind (container_from E cell_x (cell_value 4096)) (fun a =>
    bind (container_from E cell_x (cell_value p)) (fun b => k a b))) end) in
  result (two eq s_buffer) = Some true /\ ub_of (two (fun a b => bind (eq a b) (fun _ => eq a b)) s_buffer) = Some UbOutOfBlock.
Proof. vm_compute. repeat split. Qed.

(** ** Instances: each theorem applied to a concrete case that meets its hypotheses *)

(** Any change made in a look is lost. *)
Example C56_lost_example : exists w s1, container_from (bump_env dbg60) cell_x (cell_value 4096) s_buffer = Ok w s1 /\
  macro_looks (bump_env dbg60) cell_x w [put (cell_value 8192); get_all; get_all] [] s1 = Ok [cell_value 4096; cell_value 4096] s1.
Proof.
  destruct cell_owns as (_ & V & D & _ & w & s1 & R). exists w, s1. split; [exact R|].
  destruct (C56_lost _ _ _ _ _ _ _ s1 _ [put (cell_value 8192); get_all; get_all] [] cell_setup V D R (keeps_refl s1)) as [A _].
  - assert (Q : harmless (put (cell_value 8192)) /\ harmless get_all) by (split; intros v c s r s' Q; injection Q as _ <-; apply keeps_refl).
    destruct Q as [Q1 Q2]. constructor; [exact Q1|]. constructor; [exact Q2|]. constructor; [exact Q2|constructor].
  - rewrite A. reflexivity.
Qed.

Example C56_refuted_example : exists w s1, container_from (bump_env dbg60) cell_x (cell_value 4096) s_buffer = Ok w s1 /\
  macro_looks (bump_env dbg60) cell_x w [put (cell_value 8192); get_all] [] s1 = Ok [cell_value 4096] s1 /\
  place_looks [put (cell_value 8192); get_all] (cell_value 4096) [] s1 = Ok ([cell_value 8192], cell_value 8192) s1.
Proof.
  destruct cell_owns as (_ & V & D & _ & w & s1 & R). exists w, s1. split; [exact R|].
  exact (C56_refuted _ _ _ _ (cell_value 8192) _ _ _ cell_setup V D R).
Qed.

Lemma u32_box_ok : layout_legal u32_box /\ h_size u32_box <> 0 /\ forall n, hval_ok u32_box [le_bytes 4 n].
Proof.
  split; [|split; [discriminate|]].
  - apply leaf_legal. apply wf_u32.
  - intros n. repeat constructor. cbn -[N.div N.modulo N.ltb].
    rewrite !(proj2 (N.ltb_lt _ _) (N.mod_lt _ 256 ltac:(discriminate))). reflexivity.
Qed.

(** The cells: one field of at least eight bytes, the pointer in the last eight. *)
Definition a_cell (v : evalue) : Prop := exists b, ev_fields v = [b] /\ (8 <= List.length b)%nat.

Lemma a_cell_set p v : a_cell v -> p < 2 ^ 64 -> cell_get (cell_set p v) = p /\ a_cell (cell_set p v).
Proof.
  intros (b & Hb & L) Hp. unfold cell_get, cell_set. rewrite Hb. cbn [ev_fields].
  split.
  - rewrite skipn_app, skipn_all2 by (rewrite firstn_length; lia). rewrite firstn_length, Nat.min_l by exact L.
    apply Props_Nested.dec_enc, Hp.
  - eexists. split; [reflexivity|]. rewrite app_length, firstn_length. lia.
Qed.

Example C56_place_example :
  (exists v s, place_looks (map (swap (bump_env dbg60) u32_box cell_get cell_set) [[le_bytes 4 2]; [le_bytes 4 3]; [le_bytes 4 4]])
     (cell_value 4096) [] s_buffer = Ok ([[le_bytes 4 1]; [le_bytes 4 2]; [le_bytes 4 3]], v) s /\ owns u32_box cell_get s v [le_bytes 4 4]) \/
  (exists s, place_looks (map (swap (bump_env dbg60) u32_box cell_get cell_set) [[le_bytes 4 2]; [le_bytes 4 3]; [le_bytes 4 4]])
     (cell_value 4096) [] s_buffer = Panicked (PanicUser "memory allocation failed") s).
Proof.
  destruct cell_owns as (O & _), u32_box_ok as (L & Z & V).
  apply (C56_place (bump_env dbg60) u32_box cell_get cell_set a_cell [[le_bytes 4 2]; [le_bytes 4 3]; [le_bytes 4 4]]) with (old := [le_bytes 4 1]) (seen := []).
  - apply (ms_env _ _ _ cell_setup).
  - exact L.
  - exact Z.
  - repeat apply Forall_cons; try apply V. constructor.
  - intros p v K P. apply a_cell_set; [exact K|exact P].
  - eexists. split; [reflexivity|]. vm_compute. lia.
  - exact O.
Qed.

Example C56_dangling_example : exists w s1 s2, container_from (bump_env dbg60) cell_x (cell_value 4096) s_buffer = Ok w s1 /\
  macro_look (bump_env dbg60) cell_x (list hval) w (swap (bump_env dbg60) u32_box cell_get cell_set [le_bytes 4 2]) [] s1 = Ok [[le_bytes 4 1]] s2 /\
  macro_into_inner (bump_env dbg60) cell_x w s2 = Ok (cell_value 4096) s2 /\ read_at u32_box 4096 s2 = UB UbOutOfBlock /\
  dealloc 4096 4 4 s2 = UB UbBadDealloc.
Proof.
  destruct cell_owns as (O & V & D & _ & w & s1 & R), u32_box_ok as (L & Z & F).
  destruct (C56_dangling _ _ _ _ _ cell_set _ _ _ _ _ [le_bytes 4 2] cell_setup V D R L Z (F 2) O) as [P|(s2 & A & _ & B)].
  - pose proof (proj1 (proj2 C56_example)) as Q. cbv zeta in Q. cbn [macro_looks] in Q. unfold bind at 1 in Q. rewrite R in Q.
    unfold bind at 1 in Q. rewrite P in Q. discriminate Q.
  - exists w, s1, s2. split; [exact R|]. split; [exact A|exact B].
Qed.

(** Two containers of values with buffers compared by a [PartialEq] that renews the left one's. *)
Definition renewing := eq_renewing (bump_env dbg60) u32_box cell_get cell_set (fun y z => bytes_word (concat y) =? bytes_word (concat z)) [le_bytes 4 1].
Definition two_cells : M (tagged_ptr * tagged_ptr * N) := bind (alloc bump 4 4) (fun p => match p with None => raise (PanicUser "") | Some p =>
    bind (write_at u32_box p [le_bytes 4 1]) (fun _ => bind (container_from (bump_env dbg60) cell_x (cell_value 4096)) (fun a =>
    bind (container_from (bump_env dbg60) cell_x (cell_value p)) (fun b => ret (a, b, p)))) end).
Definition cells := match two_cells s_buffer with Ok (a, b, p) s => (a, b, p, s) | _ => (0, 0, 0, st0) end.
Example C56_eq_example : let '(a, b, p, s) := cells in exists s',
  tb_eq (macro_taggable (bump_env dbg60) cell_x) renewing a b s = Ok true s' /\
  tb_eq (macro_taggable (bump_env dbg60) cell_x) renewing a b s' = UB UbOutOfBlock.
Proof.
  destruct u32_box_ok as (L & Z & F).
  destruct cells as [[[a b] p] s] eqn:C.
  assert (T : result (tb_eq (macro_taggable (bump_env dbg60) cell_x) renewing (fst (fst (fst cells))) (snd (fst (fst cells))) (snd cells)) = Some true)
    by (vm_compute; reflexivity).
  assert (BA : boxed (bump_env dbg60) cell_def (without u32_box cell_get (cell_value 4096) (snd cells)) (fst (fst (fst cells))) (cell_value 4096)).
  { exists 0%nat, (KTuple [ty_cell]). split; [reflexivity|]. split; [vm_compute; reflexivity|]. cbn [storage]. apply box_holds_addr with (p := tb_as_ptr (bump_env dbg60) (fst (fst (fst cells)))); [apply leaf_legal; split; cbn; [exists 3; split; [lia|reflexivity]|reflexivity]|reflexivity|vm_compute; reflexivity]. }
  assert (BB : boxed (bump_env dbg60) cell_def (without u32_box cell_get (cell_value 4096) (snd cells)) (snd (fst (fst cells))) (cell_value (snd (fst cells)))).
  { exists 0%nat, (KTuple [ty_cell]). split; [reflexivity|]. split; [vm_compute; reflexivity|]. cbn [storage]. apply box_holds_addr with (p := tb_as_ptr (bump_env dbg60) (snd (fst (fst cells)))); [apply leaf_legal; split; cbn; [exists 3; split; [lia|reflexivity]|reflexivity]|reflexivity|vm_compute; reflexivity]. }
  assert (O : owns u32_box cell_get (snd cells) (cell_value 4096) [le_bytes 4 1]).
  { split; [vm_compute; tauto|]. split; [|vm_compute; reflexivity]. intros c Hc. vm_compute in Hc. destruct Hc as [<-|[<-|[<-|[]]]]; vm_compute; intuition discriminate. }
  rewrite C in T, BA, BB, O. cbn [fst snd] in T, BA, BB, O. 
  destruct (tb_eq (macro_taggable (bump_env dbg60) cell_x) renewing a b s) as [r s'|q s'|u] eqn:Q; try discriminate T. injection T as ->.
  exists s'. split; [reflexivity|].
  exact (C56_eq _ _ _ _ _ _ _ _ _ _ _ _ _ _ _ _ cell_setup (or_introl eq_refl) (or_introl eq_refl) BA BB L Z (F 1) O Q).
Qed.

Print Assumptions C56_lost.
Print Assumptions C56_refuted.
Print Assumptions C56_place.
Print Assumptions C56_dangling.
Print Assumptions C56_eq.
