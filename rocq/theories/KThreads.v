(** Several threads using the containers of one [tagged_box!] enum at once. A container is [Send] and [Sync] when the
    enum's fields are (see C54), so containers may be handed to other threads and looked at from several.

    As in [Threads.v] a call is the list of memory accesses it makes, and between any two of them the other
    threads run. The calls are those of [Containers.v]; [C64_calls] proves that a call run without interruption is
    the one there. Left out: [as_mut_ref] on the container's private field.

    Simplified: accesses happen one at a time in some order, which is what Rust promises to programs without data
    races. The user's trait impl called during a call counts as one access that touches no box. *)
From Coq Require Import NArith String Bool List.
From Verif Require Import Words Config Pointer Fmt Mem Box Macro Session Threads Containers.
Import ListNotations.
Local Open Scope N_scope.

(** ** Code as a list of accesses *)

(** An access of [Threads.v]; the user's code ([/repo/src/tagged_box.rs:483-589]), which may panic; the enum's destructor or
    those of its fields ([/repo/src/tagged_box_macro/mod.rs:480-497], [784-790]). *)
Inductive kact : Type -> Type :=
| Plain (X : Type) (a : act X) : kact X
| User (X : Type) (m : M X) : kact (X + panic)
| Note (evs : list event) : kact unit.

(** Code that does accesses, choosing each by what the ones before gave.
    For the functions of [/repo/src/tagged_box_macro/mod.rs:739-831]. *)
Inductive kcode (A : Type) : Type :=
| KRet (a : A)
| KRaise (p : panic)
| KUndef (u : ub)
| KStep (X : Type) (a : kact X) (k : X -> kcode A).
Arguments KRet {A} a.
Arguments KRaise {A} p.
Arguments KUndef {A} u.
Arguments KStep {A} X a k.

(** Code of [Threads.v] is such code. For [TaggedBox::new], [/repo/src/tagged_box.rs:82-104]. *)
Fixpoint lift {A} (m : code A) : kcode A :=
  match m with
  | CRet a => KRet a
  | CPanic p => KRaise p
  | CStep X a k => KStep X (Plain X a) (fun y => lift (k y))
  end.

(** One after the other. For the functions of [/repo/src/tagged_box_macro/mod.rs:739-831]. *)
Fixpoint kc_bind {A B} (m : kcode A) (f : A -> kcode B) : kcode B :=
  match m with
  | KRet a => f a
  | KRaise p => KRaise p
  | KUndef u => KUndef u
  | KStep X a k => KStep X a (fun y => kc_bind (k y) f)
  end.

(** A destructor at the end of the scope, also after a panic. As [Macro.at_exit], for
    [/repo/src/tagged_box_macro/mod.rs:784-790] and [480-497]. *)
Fixpoint kc_finally {A} (ev : event) (m : kcode A) : kcode A :=
  match m with
  | KRet a => KStep unit (Note [ev]) (fun _ => KRet a)
  | KRaise p => KStep unit (Note [ev]) (fun _ => KRaise p)
  | KUndef u => KUndef u
  | KStep X a k => KStep X a (fun y => kc_finally ev (k y))
  end.
(** Only if there is such a destructor. For [/repo/src/tagged_box_macro/mod.rs:784-790] and [480-497]. *)
Definition kc_exit {A} (b : bool) (ev : event) (m : kcode A) : kcode A := if b then kc_finally ev m else m.

(** Calling the user's code. [/repo/src/tagged_box.rs:483-589]. *)
Definition kc_user {A} (m : M A) : kcode A :=
  KStep (A + panic) (User A m) (fun r => match r with inl a => KRet a | inr p => KRaise p end).

Section Calls.
Variable E : env.
Variable x : expansion.
Variable I : impls.

(** An access in a state. [/repo/src/tagged_box.rs:92-94], [299], [483-589]. *)
Definition run_kact {X : Type} (a : kact X) : M X :=
  match a with
  | Plain _ a => run_act E a
  | User _ m => fun s => match m s with Ok a s' => Ok (inl a) s' | Panicked p s' => Ok (inr p) s' | UB u => UB u end
  | Note evs => fun s => Ok tt (St (bytes s) (blocks s) (events s ++ evs))
  end.

(** The code run without interruption. For the functions of [/repo/src/tagged_box_macro/mod.rs:739-831]. *)
Fixpoint kdenote {A} (m : kcode A) : M A :=
  match m with
  | KRet a => ret a
  | KRaise p => raise p
  | KUndef u => undefined u
  | KStep _ a k => bind (run_kact a) (fun y => kdenote (k y))
  end.

(** ** The generated functions *)

(** What [match self { .. }] does with a value: the arm taken, the fields bound, the tag, and the value handed to
    [TaggedBox::new] at its type, or none ([dangling]). [None]: does not type-check.
    [/repo/src/tagged_box_macro/mod.rs:40-101], [/repo/src/tagged_box_macro/meta_macros.rs:445-915]. *)
Definition into_plan (v : evalue) : option (option (hty * hval) * N) :=
  match find_into (ev_variant v) (x_into x) with
  | None => None
  | Some a =>
      match bind_pattern x (ia_pat a) v, eval_tag x (ia_tag a) with
      | Some binds, Some tag =>
          match ia_body a with
          | INewLeaf t arg => option_map (fun vs => (Some (leaf_hty t, vs), tag)) (lookup_all [arg] binds)
          | INewTuple tys args => option_map (fun vs => (Some (reprC tys, vs), tag)) (lookup_all args binds)
          | INewStruct ms lit =>
              match lookup_all lit binds with
              | Some vals => option_map (fun vs => (Some (reprC (map snd ms), vs), tag)) (lookup_all (map fst ms) (combine lit vals))
              | None => None
              end
          | IDangling => Some (None, tag)
          end
      | _, _ => None
      end
  end.

(** [into_tagged_box], [/repo/src/tagged_box_macro/mod.rs:784-790]. *)
Definition kc_into (v : evalue) : kcode tagged_ptr :=
  kc_exit (x_drop x) (enum_drop x v)
    (match into_plan v with
     | None => KUndef UbIllTyped
     | Some (Some (U, vs), tag) => lift (c_new E U vs tag CRet)
     | Some (None, tag) => KRet (tb_dangling E (x_align x) tag)
     end).

(** [From<payload>], [/repo/src/tagged_box_macro/mod.rs:108-118], [124-135]. *)
Definition kc_from_payload (f : from_impl) (vals : hval) : kcode tagged_ptr :=
  match f with
  | FromLeaf _ v => kc_into (EV v vals)
  | FromTuple _ v idx => match project vals idx with Some vs => kc_into (EV v vs) | None => KUndef UbIllTyped end
  end.

(** The arm taken by [match tagged.discriminant() { .. }]: [Some None]: the panic at the end.
    [/repo/src/tagged_box_macro/mod.rs:254-260], [361-376], [499-514]. *)
Fixpoint pick (d : N) (arms : list read_arm) : option (option read_arm) :=
  match arms with
  | [] => Some None
  | a :: r =>
      match eval_tag x (ra_tag a) with
      | None => None
      | Some tag => if d =? tag then Some (Some a) else pick d r
      end
  end.

(** The type at which an arm reads the box, if it does.
    [/repo/src/tagged_box_macro/mod.rs:184-252], [274-359], [386-497]. *)
Definition reads (b : build) : option hty :=
  match b with
  | BUnit | BEmpty => None
  | BLeaf t => Some (leaf_hty t)
  | BReprC tys _ => Some (reprC tys)
  | BTuple tys _ => Some (tuple_layout E tys)
  | BStruct ms _ _ => Some (reprC (map snd ms))
  end.

(** The enum value put together from what was read. [None]: does not type-check.
    [/repo/src/tagged_box_macro/mod.rs:184-252], [274-359], [386-497]. *)
Definition assemble (v : string) (b : build) (got : hval) : option evalue :=
  option_map (EV v)
    (match b with
     | BUnit | BEmpty => Some []
     | BLeaf _ => Some got
     | BReprC _ idx => project_seq got idx
     | BTuple _ idx => project got idx
     | BStruct ms pat lit =>
         match lookup_all pat (combine (map fst ms) got) with
         | None => None
         | Some bound =>
             match lookup_all lit (combine pat bound) with
             | None => None
             | Some vals => lookup_all (enum_members x v) (combine lit vals)
             end
         end
     end).

(** The body of an arm, reading at address [p]. [/repo/src/tagged_box_macro/mod.rs:184-252], [274-359], [386-497]. *)
Definition kc_build (p : N) (v : string) (b : build) : kcode evalue :=
  match reads b with
  | None => KRet (EV v [])
  | Some U => KStep hval (Plain hval (ARead U p)) (fun got =>
      match assemble v b got with Some e => KRet e | None => KUndef UbIllTyped end)
  end.

(** A [match] on the tag. [/repo/src/tagged_box_macro/mod.rs:254-260], [361-376], [499-514]. *)
Definition kc_match {A} (w : tagged_ptr) (arms : list read_arm) (body : read_arm -> kcode A) (unknown : panic) : kcode A :=
  match pick (tb_discriminant E w) arms with
  | None => KUndef UbIllTyped
  | Some None => KRaise unknown
  | Some (Some a) => body a
  end.

(** [/repo/src/tagged_box_macro/mod.rs:748-759]: [into_inner]. *)
Definition kc_into_inner (w : tagged_ptr) : kcode evalue :=
  kc_match w (x_inner x) (fun a => kc_build (tb_as_mut_ptr E w) (ra_variant a) (ra_build a)) PanicNoVariantInto.

(** [/repo/src/tagged_box_macro/mod.rs:792-810]: [from_tagged_box]. *)
Definition kc_from_tagged (w : tagged_ptr) : kcode evalue :=
  kc_match w (x_from x) (fun a => kc_build (tb_as_mut_ptr E w) (ra_variant a) (ra_build a))
    (PanicNoVariantFrom (x_total x) (tb_discriminant E w)).

(** [/repo/src/tagged_box_macro/mod.rs:812-829]: [ref_from_tagged_box]. *)
Definition kc_look {A} (w : tagged_ptr) (callback : evalue -> kcode A) : kcode A :=
  kc_match w (x_ref x)
    (fun a => kc_bind (kc_build (tb_as_ptr E w) (ra_variant a) (ra_build a)) (fun v =>
       kc_exit (x_drop x && negb (ra_guarded a)) (enum_drop x v) (callback v)))
    (PanicNoVariantRef (x_total x) (tb_discriminant E w)).

(** ** The calls *)

(** A variable of the given number must be a container. For [/repo/src/tagged_box.rs:483-589]. *)
Definition with_box {A} (c : option kcell) (f : tagged_ptr -> A) : option A :=
  match c with Some (KBox w) => Some (f w) | _ => None end.

(** A call on the variables [c]: what the client sees, and the new contents of the variable it changes or makes
    ([KGone] if it does neither). [None]: does not compile, or not one of the calls considered here.
    The cases are those of [Containers.kstep]; [/repo/src/tagged_box_macro/mod.rs:739-831], [/repo/src/tagged_box.rs:483-589]. *)
Definition kc_call (o : kop) (c : list kcell) : option (kcode (kobs * kcell)) :=
  let same {A} (f : A -> kobs) (m : kcode A) := kc_bind m (fun r => KRet (f r, KGone)) in
  let boxed (m : kcode tagged_ptr) := kc_bind m (fun w => KRet (KNothing, KBox w)) in
  let taken (m : kcode evalue) := kc_bind m (fun v => KRet (KSawValues [v], KVal v)) in
  match o with
  | KNew v => Some (KRet (KNothing, KVal v))
  | KFrom i =>
      match nth_error c i with
      | Some (KVal v) => Some (boxed (kc_into v))
      | _ => None
      end
  | KFromPayload src vals =>
      match find (fun f => match f with
                           | FromLeaf t _ => String.eqb (ty_name t) src
                           | FromTuple tys _ _ => String.eqb ("(" ++ String.concat ", " (map ty_name tys) ++ ")") src
                           end) (x_froms x) with
      | Some f => Some (boxed (kc_from_payload f vals))
      | None => None
      end
  | KClone i => with_box (nth_error c i) (fun w =>
      boxed (kc_bind (kc_look w (fun v => kc_user (i_clone I v))) kc_into))
  | KCopy i => if x_copy x then with_box (nth_error c i) (fun w => KRet (KNothing, KBox (tb_copy w))) else None
  | KEq i j =>
      match nth_error c i, nth_error c j with
      | Some (KBox a), Some (KBox b) =>
          Some (same KSawBool (kc_look a (fun v => kc_look b (fun w => kc_user (i_eq I v w)))))
      | _, _ => None
      end
  | KPartialCmp i j =>
      match nth_error c i, nth_error c j with
      | Some (KBox a), Some (KBox b) =>
          Some (same KSawPartial (kc_look a (fun v => kc_look b (fun w => kc_user (i_pcmp I v w)))))
      | _, _ => None
      end
  | KCmp i j =>
      match nth_error c i, nth_error c j with
      | Some (KBox a), Some (KBox b) =>
          Some (same KSawOrd (kc_look a (fun v => kc_look b (fun w => kc_user (i_cmp I v w)))))
      | _, _ => None
      end
  | KDebug i o out => with_box (nth_error c i) (fun w =>
      same (fun r => let '(text, ok) := derived_debug o (x_container x) "value" r in KSawText ((out ++ text)%string, ok))
        (kc_look w (fun v => kc_user (i_debug I default_opts v EmptyString))))
  | KDebugValue i _ out => with_box (nth_error c i) (fun w =>
      same KSawText (kc_look w (fun v => kc_user (i_debug I default_opts v out))))
  | KDisplay i _ out => with_box (nth_error c i) (fun w =>
      same KSawText (kc_look w (fun v => kc_user (i_display I default_opts v out))))
  | KView i => with_box (nth_error c i) (fun w => same KSawValues (kc_look w (fun v => KRet [v])))
  | KTag i => with_box (nth_error c i) (fun w => KRet (KSawTag (tb_discriminant E w), KGone))
  | KIntoInner i => with_box (nth_error c i) (fun w => taken (kc_into_inner w))
  | KFromTagged i => with_box (nth_error c i) (fun w => taken (kc_from_tagged w))
  | KDrop i => with_box (nth_error c i) (fun w => KRet (KNothing, KGone))
  | KDropVal i =>
      match nth_error c i with
      | Some (KVal v) =>
          let tys := match assoc (ev_variant v) (x_enum x) with Some k => kind_types k | None => [] end in
          Some (KStep unit (Note ((if x_drop x then [enum_drop x v] else []) ++ drop_events tys (ev_fields v)))
                  (fun _ => KRet (KNothing, KGone)))
      | _ => None
      end
  | KModify _ _ _ | KAssign _ _ _ => None
  end.

End Calls.

(** The variables a call uses, and the one it changes or makes. For the calls of [/repo/src/tagged_box_macro/mod.rs:739-831],
    [/repo/src/tagged_box.rs:483-589]. *)
Definition kuses (o : kop) : list nat :=
  match o with
  | KNew _ | KFromPayload _ _ => []
  | KEq i j | KPartialCmp i j | KCmp i j => [i; j]
  | KFrom i | KClone i | KCopy i | KDebug i _ _ | KDebugValue i _ _ | KDisplay i _ _ | KView i | KTag i
  | KModify i _ _ | KAssign i _ _ | KIntoInner i | KFromTagged i | KDrop i | KDropVal i => [i]
  end.
(** Where the result of a call goes. For the calls of [/repo/src/tagged_box_macro/mod.rs:739-831]. *)
Inductive kwhere : Type := Nowhere | There (i : nat) | Anew.
(** The same for each call of [/repo/src/tagged_box_macro/mod.rs:739-831], [/repo/src/tagged_box.rs:483-589]. *)
Definition kresult (o : kop) : kwhere :=
  match o with
  | KNew _ | KFromPayload _ _ | KClone _ | KCopy _ => Anew
  | KFrom i | KIntoInner i | KFromTagged i | KDrop i | KDropVal i | KModify i _ _ | KAssign i _ _ => There i
  | _ => Nowhere
  end.

(** ** Threads *)

(** May thread [t] make the call? Its own variables may be used for anything; those shared only for the calls that take
    [&self], [/repo/src/tagged_box.rs:419], [483-589], [/repo/src/tagged_box_macro/mod.rs:812-829]. *)
Definition kallowed (owners : list owner) (t : nat) (o : kop) : bool :=
  forallb (fun i =>
    match nth_error owners i with
    | Some (By t') => Nat.eqb t t'
    | Some Everyone => match kresult o with There _ => false | _ => true end
    | None => false
    end) (kuses o).

(** What a thread does: calls (its way on depends on what it sees; for a new variable it learns the number), handing a variable
    to a thread, sharing a container from now on, taking the next variable handed to it.
    Clients, not code of the repository. For clients of [/repo/src/tagged_box_macro/mod.rs:739-831]. *)
Inductive ktprog : Type :=
| KTStop
| KTCall (o : kop) (k : nat -> kobs -> ktprog)
| KTGive (i t : nat) (k : ktprog)
| KTShare (i : nat) (k : ktprog)
| KTTake (k : nat -> ktprog).

(** A thread between calls, or inside one with the accesses still to come. [out]: the allocator returned null during this
    call; [usr]: the states before and after the user's code it ran, if any. [KRejected]: a step the compiler does not accept.
    For clients of [/repo/src/tagged_box_macro/mod.rs:739-831]. *)
Inductive kjob : Type :=
| KIdle (p : ktprog)
| KBusy (o : kop) (out : bool) (usr : st * st) (m : kcode (kobs * kcell)) (k : nat -> kobs -> ktprog)
| KRejected.

(** [kmail]: the variables handed to it, oldest first; [kseen]: everything it saw. For clients of [/repo/src/tagged_box_macro/mod.rs:739-831]. *)
Record kthread : Type := KThread { kdoing : kjob; kmail : list nat; kseen : list kobs }.

(** All threads, all their variables, memory. For clients of [/repo/src/tagged_box_macro/mod.rs:739-831]. *)
Record ksys : Type := KSys {
  kthreads : list kthread;
  kvars : list kcell;
  kowners : list owner;
  kmemory : st
}.

(** A step a thread completed: which thread, whether the allocator had failed it, the states around the user's code it ran.
    For clients of [/repo/src/tagged_box_macro/mod.rs:739-831]. *)
Definition kdone : Type := (nat * bool * (st * st))%type.
(** What a move leads to. For clients of [/repo/src/tagged_box_macro/mod.rs:739-831]. *)
Inductive kmoved : Type := KMoved (y : ksys) (finished : option kdone) | KBroke (u : ub).

(** Did the allocator return null? [/repo/src/tagged_box.rs:92-93]. *)
Definition kout_of_memory {X : Type} (a : kact X) : X -> bool :=
  match a in kact X return X -> bool with
  | Plain _ a => out_of_memory a
  | _ => fun _ => false
  end.

(** The states around the user's code. For [/repo/src/tagged_box.rs:483-589]. *)
Definition knote_user {X : Type} (a : kact X) (s s' : st) (usr : st * st) : st * st :=
  match a with User _ _ => (s, s') | _ => usr end.

Section Moves.
Variable E : env.
Variable x : expansion.
Variable I : impls.

(** Auxiliary: the system with another thread [t]. For clients of [/repo/src/tagged_box_macro/mod.rs:739-831]. *)
Definition kwith (t : nat) (h : kthread) (y : ksys) : ksys :=
  KSys (put t h (kthreads y)) (kvars y) (kowners y) (kmemory y).

(** A call ends; after a panic the variable it was to change or make is empty, as in [Containers.kafter_panic].
    For clients of [/repo/src/tagged_box_macro/mod.rs:739-831]. *)
Definition kreturns (t : nat) (h : kthread) (o : kop) (k : nat -> kobs -> ktprog) (r : kobs) (c : kcell) (y : ksys) : ksys :=
  match kresult o with
  | Nowhere => KSys (put t (KThread (KIdle (k 0%nat r)) (kmail h) (kseen h ++ [r])) (kthreads y)) (kvars y) (kowners y) (kmemory y)
  | There i => KSys (put t (KThread (KIdle (k i r)) (kmail h) (kseen h ++ [r])) (kthreads y)) (put i c (kvars y)) (kowners y) (kmemory y)
  | Anew => KSys (put t (KThread (KIdle (k (List.length (kvars y)) r)) (kmail h) (kseen h ++ [r])) (kthreads y))
              (kvars y ++ [c]) (kowners y ++ [By t]) (kmemory y)
  end.

(** The next move of thread [t]: a call starts (nothing happens yet), makes its next access, or returns. A thread waiting
    for a variable, or at its end, stays. For clients of [/repo/src/tagged_box_macro/mod.rs:739-831]. *)
Definition kmove (t : nat) (y : ksys) : kmoved :=
  match nth_error (kthreads y) t with
  | None => KMoved y None
  | Some h =>
      let rejected := KMoved (kwith t (KThread KRejected (kmail h) (kseen h)) y) None in
      let still := (kmemory y, kmemory y) in
      match kdoing h with
      | KRejected | KIdle KTStop => KMoved y None
      | KIdle (KTCall o k) =>
          match (if kallowed (kowners y) t o then kc_call E x I o (kvars y) else None) with
          | Some m => KMoved (kwith t (KThread (KBusy o false still m k) (kmail h) (kseen h)) y) None
          | None => rejected
          end
      | KBusy o out usr m k =>
          match m with
          | KRet (r, c) => KMoved (kreturns t h o k r c y) (Some (t, out, usr))
          | KRaise q => KMoved (kreturns t h o k (KSawPanic q) KGone y) (Some (t, out, usr))
          | KUndef u => KBroke u
          | KStep _ a next =>
              match run_kact E a (kmemory y) with
              | Ok r s => KMoved (KSys (put t (KThread (KBusy o (out || kout_of_memory a r) (knote_user a (kmemory y) s usr) (next r) k)
                                                  (kmail h) (kseen h)) (kthreads y)) (kvars y) (kowners y) s) None
              | Panicked _ _ => rejected     (* no access panics *)
              | UB u => KBroke u
              end
          end
      | KIdle (KTGive i t' k) =>
          let l := put t (KThread (KIdle k) (kmail h) (kseen h)) (kthreads y) in
          match nth_error (kowners y) i, nth_error l t' with
          | Some w, Some h' =>
              if (match w with By z => Nat.eqb t z | Everyone => true end) then
                KMoved (KSys (put t' (KThread (kdoing h') (kmail h' ++ [i]) (kseen h')) l)
                             (kvars y) (match w with By _ => put i (By t') (kowners y) | Everyone => kowners y end) (kmemory y))
                       (Some (t, false, still))
              else rejected
          | _, _ => rejected
          end
      | KIdle (KTShare i k) =>
          match nth_error (kowners y) i, nth_error (kvars y) i with
          | Some (By z), Some (KBox _) =>
              if Nat.eqb t z then
                KMoved (KSys (put t (KThread (KIdle k) (kmail h) (kseen h)) (kthreads y)) (kvars y) (put i Everyone (kowners y)) (kmemory y))
                       (Some (t, false, still))
              else rejected
          | _, _ => rejected
          end
      | KIdle (KTTake k) =>
          match kmail h with
          | [] => KMoved y None
          | i :: r => KMoved (kwith t (KThread (KIdle (k i)) r (kseen h)) y) (Some (t, false, still))
          end
      end
  end.

(** The threads move in the given order: the steps completed, and how it ends. For clients of [/repo/src/tagged_box_macro/mod.rs:739-831]. *)
Fixpoint kmoves (order : list nat) (y : ksys) : list kdone * (ksys + ub) :=
  match order with
  | [] => ([], inl y)
  | t :: r =>
      match kmove t y with
      | KBroke u => ([], inr u)
      | KMoved y' e =>
          let (l, z) := kmoves r y' in
          (match e with Some f => f :: l | None => l end, z)
      end
  end.

End Moves.

(** The memory thread [h] is about to touch. For the calls of [/repo/src/tagged_box_macro/mod.rs:739-831]. *)
Definition kabout_to (h : kthread) : option touch :=
  match kdoing h with KBusy _ _ _ (KStep _ (Plain _ a) _) _ => touches a | _ => None end.

(** Threads that run the given programs, without variables. For clients of [/repo/src/tagged_box_macro/mod.rs:739-831]. *)
Definition kboot (ps : list ktprog) (s : st) : ksys := KSys (map (fun p => KThread (KIdle p) [] []) ps) [] [] s.
