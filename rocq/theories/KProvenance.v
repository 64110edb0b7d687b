(** The client programs of [Containers.v] on the machine of [Provenance.v], whose pointers know the block they were made for.
    The code [tagged_box!] generates reads boxes through [into_inner] and [as_ptr], which cast the integer in the box to a
    pointer ([/repo/src/tagged_box_macro/mod.rs:184-252], [274-359], [386-497], [/repo/src/tagged_pointer.rs:110], [116]).

    User code (the impls for the enum) stays as in [Containers.v]; the blocks it makes get numbers when it returns. Simplified: a block it
    freed and made again in the same place keeps its number, and it exposes nothing. *)
From Coq Require Import NArith String Bool List.
From Verif Require Import Words Config Pointer Fmt Mem Box Macro Session Containers Provenance.
Import ListNotations.
Local Open Scope N_scope.
Local Open Scope p_scope.

(** ** User code *)

(** Numbers for blocks [bs]: those they had in [old], or new ones from [n] on; and the next number.
    Of the machine under user code called in [/repo/src/tagged_box.rs:483-589], not code of the repository. *)
Fixpoint renumber (old : list (nat * block)) (n : nat) (bs : list block) : list (nat * block) * nat :=
  match bs with
  | [] => ([], n)
  | b :: r =>
      match find (fun q => block_eqb (snd q) b) old with
      | Some q => let (l, n') := renumber old n r in ((fst q, b) :: l, n')
      | None => let (l, n') := renumber old (S n) r in ((n, b) :: l, n')
      end
  end.
(** The machine with memory [m] after user code. User code called in [/repo/src/tagged_box.rs:483-589]. *)
Definition p_after (m : st) (s : pst) : pst :=
  let (l, n) := renumber (p_blocks s) (p_next s) (blocks m) in PSt m l (p_exposed s) n.
(** The user's impl for the enum. Called in [/repo/src/tagged_box.rs:483-589]. *)
Definition p_user {A} (m : M A) : PM A := fun s =>
  match m (p_mem s) with
  | Ok a s' => POk a (p_after s' s)
  | Panicked q s' => PPanic q (p_after s' s)
  | UB u => PUB (Plain u)
  end.

(** ** The functions of [Macro.v] *)

(** As [Macro.at_exit]. For [self] in [/repo/src/tagged_box_macro/mod.rs:784-790] and the unit arm [480-497]. *)
Definition p_at_exit {A} (b : bool) (ev : event) (m : PM A) : PM A := fun s =>
  let note s := PSt (log ev (p_mem s)) (p_blocks s) (p_exposed s) (p_next s) in
  if b then
    match m s with
    | POk a s' => POk a (note s')
    | PPanic p s' => PPanic p (note s')
    | PUB u => PUB u
    end
  else m s.

Section Run.
Variable E : env.
Variable x : expansion.
(** As in [Provenance.v]. For the casts in [/repo/src/tagged_pointer.rs:75], [87], [110], [116]. *)
Variable strict : bool.

(** As [Macro.run_into_body]. [/repo/src/tagged_box_macro/mod.rs:40-95], [/repo/src/tagged_box_macro/meta_macros.rs:445-915]. *)
Definition pk_into_body (b : into_body) (binds : list (string * leafval)) (tag : N) : PM tagged_ptr :=
  match b with
  | INewLeaf t arg => vs <- under (resolved (lookup_all [arg] binds)) ;; p_new E (leaf_hty t) vs tag
  | INewTuple tys args => vs <- under (resolved (lookup_all args binds)) ;; p_new E (reprC tys) vs tag
  | INewStruct ms lit =>
      vals <- under (resolved (lookup_all lit binds)) ;;
      vs <- under (resolved (lookup_all (map fst ms) (combine lit vals))) ;;
      p_new E (reprC (map snd ms)) vs tag
  | IDangling => pret (tb_dangling E (x_align x) tag)
  end.

(** As [Macro.macro_into]. [/repo/src/tagged_box_macro/mod.rs:784-790]. *)
Definition pk_into (v : evalue) : PM tagged_ptr :=
  p_at_exit (x_drop x) (enum_drop x v) (
    a <- under (resolved (find_into (ev_variant v) (x_into x))) ;;
    binds <- under (resolved (bind_pattern x (ia_pat a) v)) ;;
    tag <- under (resolved (eval_tag x (ia_tag a))) ;;
    pk_into_body (ia_body a) binds tag).

(** As [Macro.run_build]. [/repo/src/tagged_box_macro/mod.rs:184-252], [274-359], [386-497]. *)
Definition pk_build (rd : hty -> PM hval) (v : string) (b : build) : PM evalue :=
  match b with
  | BUnit => pret (EV v [])
  | BEmpty => pret (EV v [])
  | BLeaf t => vs <- rd (leaf_hty t) ;; pret (EV v vs)
  | BReprC tys idx =>
      tuple <- rd (reprC tys) ;; vs <- under (resolved (project_seq tuple idx)) ;; pret (EV v vs)
  | BTuple tys idx =>
      tuple <- rd (tuple_layout E tys) ;; vs <- under (resolved (project tuple idx)) ;; pret (EV v vs)
  | BStruct ms pat lit =>
      fields <- rd (reprC (map snd ms)) ;;
      bound <- under (resolved (lookup_all pat (combine (map fst ms) fields))) ;;
      vals <- under (resolved (lookup_all lit (combine pat bound))) ;;
      vs <- under (resolved (lookup_all (enum_members x v) (combine lit vals))) ;;
      pret (EV v vs)
  end.

(** As [Macro.match_disc]. [/repo/src/tagged_box_macro/mod.rs:254-260], [361-376], [499-514]. *)
Fixpoint pk_match {A} (d : N) (arms : list read_arm) (body : read_arm -> PM A) (default : PM A) : PM A :=
  match arms with
  | [] => default
  | a :: r =>
      tag <- under (resolved (eval_tag x (ra_tag a))) ;;
      if d =? tag then body a else pk_match d r body default
  end.

(** As [Macro.macro_into_inner]. [/repo/src/tagged_box_macro/mod.rs:748-759] and [254-260]. *)
Definition pk_into_inner (w : tagged_ptr) : PM evalue :=
  pk_match (tb_discriminant E w) (x_inner x)
    (fun a => pk_build (fun H => p_into_inner E strict H w) (ra_variant a) (ra_build a))
    (under (raise PanicNoVariantInto)).

(** As [Macro.macro_from]. [/repo/src/tagged_box_macro/mod.rs:792-810] and [361-376]. *)
Definition pk_from (w : tagged_ptr) : PM evalue :=
  pk_match (tb_discriminant E w) (x_from x)
    (fun a => pk_build (fun H => p_into_inner E strict H w) (ra_variant a) (ra_build a))
    (under (raise (PanicNoVariantFrom (x_total x) (tb_discriminant E w)))).

(** As [Macro.macro_ref]. [/repo/src/tagged_box_macro/mod.rs:812-829] and [499-514]. *)
Definition pk_ref {S : Type} (w : tagged_ptr) (callback : evalue -> S -> PM S) (captured : S) : PM S :=
  pk_match (tb_discriminant E w) (x_ref x)
    (fun a =>
       variant <- pk_build (fun H => p <- p_as_ptr E strict w ;; p_read H p) (ra_variant a) (ra_build a) ;;
       p_at_exit (x_drop x && negb (ra_guarded a)) (enum_drop x variant) (callback variant captured))
    (under (raise (PanicNoVariantRef (x_total x) (tb_discriminant E w)))).

(** As [Macro.container_from_payload]. [/repo/src/tagged_box_macro/mod.rs:108-118] and [124-135]. *)
Definition pk_from_payload (f : from_impl) (vals : hval) : PM tagged_ptr :=
  match f with
  | FromLeaf _ v => pk_into (EV v vals)
  | FromTuple _ v idx => vs <- under (resolved (project vals idx)) ;; pk_into (EV v vs)
  end.

(** ** The trait impls of [Box.v] *)

Variable I : impls.

(** [/repo/src/tagged_box.rs:515-531]. *)
Definition pk_clone (w : tagged_ptr) : PM tagged_ptr :=
  output <- pk_ref w (fun this _ => c <- p_user (i_clone I this) ;; pret (Some c)) None ;;
  match output with
  | None => under (raise PanicCloneExpect)
  | Some v => pk_into v
  end.
(** [/repo/src/tagged_box.rs:535-551], [555-571], [573-589]: one after the other, [f] the user's impl, [init] the answer if it is never called. *)
Definition pk_both {A} (f : evalue -> evalue -> M A) (init : A) (a b : tagged_ptr) : PM A :=
  pk_ref a (fun this r => pk_ref b (fun other r => p_user (f this other)) r) init.
(** [/repo/src/tagged_box.rs:483-513]; [f] is the user's [Debug] or [Display]. *)
Definition pk_fmt (f : fmt_impl (V := evalue)) (w : tagged_ptr) (out : string) : PM (string * bool) :=
  pk_ref w (fun this r => p_user (f default_opts this (fst r))) (out, true).
(** As [Containers.container_debug]. [/repo/src/tagged_box_macro/mod.rs:739-742]. *)
Definition pk_debug (o : fmt_opts) (w : tagged_ptr) (out : string) : PM (string * bool) :=
  r <- pk_fmt (i_debug I) w EmptyString ;;
  let '(text, ok) := derived_debug o (x_container x) "value" r in
  pret ((out ++ text)%string, ok).

(** ** Clients *)

(** As [Containers.kstep]. [/repo/src/tagged_box_macro/mod.rs:739-831], [/repo/src/tagged_box.rs:483-589]. *)
Definition pk_step (o : kop) (c : list kcell) : option (PM (kobs * list kcell)) :=
  let box i (f : tagged_ptr -> PM (kobs * list kcell)) :=
    match nth_error c i with Some (KBox w) => Some (f w) | _ => None end in
  let boxes i j (f : tagged_ptr -> tagged_ptr -> PM (kobs * list kcell)) :=
    match nth_error c i, nth_error c j with Some (KBox a), Some (KBox b) => Some (f a b) | _, _ => None end in
  let leaf i n (f : tagged_ptr -> hty -> PM (kobs * list kcell)) :=
    match nth_error c i, leaf_type x n with Some (KBox w), Some t => Some (f w (leaf_hty t)) | _, _ => None end in
  match o with
  | KNew v => Some (pret (KNothing, c ++ [KVal v]))
  | KFrom i =>
      match nth_error c i with
      | Some (KVal v) => Some (w <- pk_into v ;; pret (KNothing, put i (KBox w) c))
      | _ => None
      end
  | KFromPayload src vals =>
      match find (fun f => match f with
                           | FromLeaf t _ => String.eqb (ty_name t) src
                           | FromTuple tys _ _ => String.eqb ("(" ++ String.concat ", " (map ty_name tys) ++ ")") src
                           end) (x_froms x) with
      | Some f => Some (w <- pk_from_payload f vals ;; pret (KNothing, c ++ [KBox w]))
      | None => None
      end
  | KClone i => box i (fun w => w' <- pk_clone w ;; pret (KNothing, c ++ [KBox w']))
  | KCopy i => if x_copy x then box i (fun w => pret (KNothing, c ++ [KBox (tb_copy w)])) else None
  | KEq i j => boxes i j (fun a b => r <- pk_both (i_eq I) false a b ;; pret (KSawBool r, c))
  | KPartialCmp i j => boxes i j (fun a b => r <- pk_both (i_pcmp I) None a b ;; pret (KSawPartial r, c))
  | KCmp i j => boxes i j (fun a b => r <- pk_both (i_cmp I) Eq a b ;; pret (KSawOrd r, c))
  | KDebug i o out => box i (fun w => r <- pk_debug o w out ;; pret (KSawText r, c))
  | KDebugValue i _ out => box i (fun w => r <- pk_fmt (i_debug I) w out ;; pret (KSawText r, c))
  | KDisplay i _ out => box i (fun w => r <- pk_fmt (i_display I) w out ;; pret (KSawText r, c))
  | KView i => box i (fun w => r <- pk_ref w (fun v seen => pret (seen ++ [v])) [] ;; pret (KSawValues r, c))
  | KTag i => box i (fun w => pret (KSawTag (tb_discriminant E w), c))
  | KModify i n f => leaf i n (fun w U => p_modify E strict U w (map f) ;; pret (KNothing, c))
  | KAssign i n val =>
      leaf i n (fun w U => p <- to_ptr strict (tp_mut_ref_addr (tgt E) w) ;; p_assign U p [val] ;; pret (KNothing, c))
  | KFromTagged i => box i (fun w => v <- pk_from w ;; pret (KSawValues [v], put i (KVal v) c))
  | KIntoInner i => box i (fun w => v <- pk_into_inner w ;; pret (KSawValues [v], put i (KVal v) c))
  | KDrop i => box i (fun w => pret (KNothing, put i KGone c))
  | KDropVal i =>
      match nth_error c i with
      | Some (KVal v) => Some (under (drop_evalue x v) ;; pret (KNothing, put i KGone c))
      | _ => None
      end
  end.

(** How a run ends. For clients of [/repo/src/tagged_box_macro/mod.rs:739-831]. *)
Inductive pkending : Type := PKFinished (c : list kcell) (s : pst) | PKUndefined (u : pub) | PKDoesNotCompile.

(** As [Containers.krun]. For clients of [/repo/src/tagged_box_macro/mod.rs:739-831]. *)
Fixpoint pk_run (p : kprog) (c : list kcell) (s : pst) : list kobs * pkending :=
  match p with
  | KStop => ([], PKFinished c s)
  | KDo o k =>
      match pk_step o c with
      | None => ([], PKDoesNotCompile)
      | Some m =>
          match m s with
          | POk (r, c') s' => let (l, e) := pk_run (k r) c' s' in (r :: l, e)
          | PPanic q s' => let (l, e) := pk_run (k (KSawPanic q)) (kafter_panic o c) s' in (KSawPanic q :: l, e)
          | PUB u => ([], PKUndefined u)
          end
      end
  end.

End Run.
