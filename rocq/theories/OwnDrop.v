(** Client programs of a [tagged_box!] enum with a [Drop] impl of its own, which may panic.

    The crate runs this impl where one might not expect it: [into_tagged_box] takes [self] apart by copying its fields (the compiler accepts
    this only for fields without destructors) and drops it on the way out, and [ref_from_tagged_box] drops the unit variants it makes up.
    Machine and rules are those of [DropPanics.v]; the functions are those of [KDropPanics.v] and, for the calls that look at a box, those
    of [Box.v] on that machine. A panic of the user's other impls counts as theirs, whatever caused it. *)
From Coq Require Import NArith String Bool List.
From Verif Require Import Words Config Pointer Fmt Mem Box Macro Session Containers DropPanics KDropPanics.
Import ListNotations.
Local Open Scope N_scope.
Local Open Scope d_scope.

(** [fin] is run only if [m] panics. Rust's drop glue on unwinding, as for [output] in [/repo/src/tagged_box.rs:520-525]. *)
Definition on_panic {A} (m : DM A) (fin : DM unit) : DM A := fun unwinding s =>
  match m unwinding s with
  | DPanic p s' =>
      match fin true s' with
      | DOk _ s2 => DPanic p s2
      | DPanic _ s2 => DAbort s2
      | DAbort s2 => DAbort s2
      | DUB u => DUB u
      end
  | r => r
  end.

Section Client.
Variable E : env.
Variable x : expansion.
Variable I : impls.
(** Does the [Drop] impl panic, run on this value in this state? Any function.
    For the [Drop] impl of the enum of [/repo/src/tagged_box_macro/mod.rs:14-20]. *)
Variable fussy : st -> string -> leafval -> bool.

(** An arm of [ref_from_tagged_box] with the closure of [clone]. If the [Drop] of the unit variant panics, the clone in [output] is dropped
    on the way up. [/repo/src/tagged_box_macro/mod.rs:386-497] with [/repo/src/tagged_box.rs:520-525]. *)
Definition od_clone_arm (drops : bool) (this : evalue) : DM evalue := fun unwinding s =>
  match i_clone I this s with
  | Ok c s1 => on_panic (d_at_exit x fussy drops this (dret c)) (d_drop_evalue x fussy c) unwinding s1
  | _ => d_at_exit x fussy drops this (plainly (i_clone I this)) unwinding s
  end.

(** The first half of [clone]: [output] as the closure leaves it. The closure is always run (property C25), so [expect] has nothing to do.
    [/repo/src/tagged_box.rs:519-528]. *)
Definition od_clone_look (w : tagged_ptr) : DM evalue :=
  d_match_disc x (tb_discriminant E w) (x_ref x)
    (fun a =>
       this <- plainly (run_build E x (fun H => read_at H (tb_as_ptr E w)) (ra_variant a) (ra_build a)) ;;
       od_clone_arm (x_drop x && negb (ra_guarded a)) this)
    (draise (InCrate (PanicNoVariantRef (x_total x) (tb_discriminant E w)))).

(** [/repo/src/tagged_box.rs:515-531]. *)
Definition od_clone (w : tagged_ptr) : DM tagged_ptr := c <- od_clone_look w ;; d_into E x fussy c.

(** One look at a box, with code of the user's. [/repo/src/tagged_box.rs:483-513]. *)
Definition od_one {S} (w : tagged_ptr) (f : evalue -> S -> M S) (init : S) : DM S :=
  d_ref E x fussy S w (fun this r => plainly (f this r)) init.

(** A look at one box inside a look at another. [/repo/src/tagged_box.rs:535-589]. *)
Definition od_two {S} (a b : tagged_ptr) (f : evalue -> evalue -> M S) (init : S) : DM S :=
  d_ref E x fussy S a (fun this r => d_ref E x fussy S b (fun other _ => plainly (f this other)) r) init.

(** As [Containers.kstep]: what runs no [Drop] is taken from there.
    [/repo/src/tagged_box_macro/mod.rs:739-831], [/repo/src/tagged_box.rs:483-589]. *)
Definition od_step (o : kop) (c : list kcell) : option (DM (kobs * list kcell)) :=
  let box (f : tagged_ptr -> DM kobs) i := match nth_error c i with Some (KBox w) => Some (r <- f w ;; dret (r, c)) | _ => None end in
  let boxes (f : tagged_ptr -> tagged_ptr -> DM kobs) i j :=
    match nth_error c i, nth_error c j with Some (KBox a), Some (KBox b) => Some (r <- f a b ;; dret (r, c)) | _, _ => None end in
  match o with
  | KFrom i =>
      match nth_error c i with
      | Some (KVal v) => Some (w <- d_into E x fussy v ;; dret (KNothing, put i (KBox w) c))
      | _ => None
      end
  | KFromPayload src vals =>
      match find (fun f => match f with
                           | FromLeaf t _ => String.eqb (ty_name t) src
                           | FromTuple tys _ _ => String.eqb ("(" ++ String.concat ", " (map ty_name tys) ++ ")") src
                           end) (x_froms x) with
      | Some f => Some (w <- d_from_payload E x fussy f vals ;; dret (KNothing, c ++ [KBox w]))
      | None => None
      end
  | KClone i =>
      match nth_error c i with
      | Some (KBox w) => Some (w' <- od_clone w ;; dret (KNothing, c ++ [KBox w']))
      | _ => None
      end
  | KEq i j => boxes (fun a b => r <- od_two a b (i_eq I) false ;; dret (KSawBool r)) i j
  | KPartialCmp i j => boxes (fun a b => r <- od_two a b (i_pcmp I) None ;; dret (KSawPartial r)) i j
  | KCmp i j => boxes (fun a b => r <- od_two a b (i_cmp I) Eq ;; dret (KSawOrd r)) i j
  | KDebug i o out =>
      box (fun w => r <- od_one w (fun this r => i_debug I default_opts this (fst r)) (EmptyString, true) ;;
                    dret (let r := derived_debug o (x_container x) "value" r in KSawText ((out ++ fst r)%string, snd r))) i
  | KDebugValue i _ out => box (fun w => r <- od_one w (fun this r => i_debug I default_opts this (fst r)) (out, true) ;; dret (KSawText r)) i
  | KDisplay i _ out => box (fun w => r <- od_one w (fun this r => i_display I default_opts this (fst r)) (out, true) ;; dret (KSawText r)) i
  | KView i => box (fun w => r <- od_one w (fun this r => ret (r ++ [this])) [] ;; dret (KSawValues r)) i
  | KDropVal i =>
      match nth_error c i with
      | Some (KVal v) => Some (d_drop_evalue x fussy v ;; dret (KNothing, put i KGone c))
      | _ => None
      end
  | _ => option_map plainly (kstep E x I o c)
  end.

(** As [KDropPanics.kd_run]. For clients of [/repo/src/tagged_box_macro/mod.rs:739-831]. *)
Fixpoint od_run (p : kdprog) (c : list kcell) (s : st) : list kdobs * kdending :=
  match p with
  | KDStop => ([], KDFinished c s)
  | KDDo o k =>
      match od_step o c with
      | None => ([], KDDoesNotCompile)
      | Some m =>
          match m false s with
          | DOk (r, c') s' => let (l, e) := od_run (k (KSaw r)) c' s' in (KSaw r :: l, e)
          | DPanic q s' => let (l, e) := od_run (k (kcaught q)) (kd_after_panic o c) s' in (kcaught q :: l, e)
          | DAbort s' => ([], KDAborted s')
          | DUB u => ([], KDUndefined u)
          end
      end
  end.

End Client.
