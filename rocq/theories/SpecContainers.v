(** What a client program of a [tagged_box!] enum is supposed to do: the same program where every
    container is simply the enum value put into it. *)
From Coq Require Import ZArith NArith String Bool List.
From Verif Require Import Words Config Spec Pointer Fmt Mem Box SpecMem Macro SpecMacro Session SpecSession Containers.
Import ListNotations.
Local Open Scope N_scope.

(** What the user's impls do with values in one state: what they return, or that they panic. *)
Record meaning : Type := Meaning {
  m_clone : evalue -> outcome evalue;
  m_eq : evalue -> evalue -> outcome bool;
  m_pcmp : evalue -> evalue -> outcome (option comparison);
  m_cmp : evalue -> evalue -> outcome comparison;
  m_debug : fmt_opts -> evalue -> string -> outcome (string * bool);
  m_display : fmt_opts -> evalue -> string -> outcome (string * bool)
}.

(** The result of code that ends in state [s]. *)
Definition ends {A} (r : outcome A) (s : st) : res A :=
  match r with Done a => Ok a s | Panics p => Panicked p s end.

(** The impls, called in state [s] on values of the enum, give what [F s] says; their effect on the
    state is within [R]. A clone may be another value in every state (as the new [String] is). *)
Definition computes {A} (R : st -> st -> Prop) (s : st) (m : M A) (r : outcome A) : Prop :=
  exists s', m s = ends r s' /\ R s s'.

Record implements (R : st -> st -> Prop) (def : edef) (I : impls) (F : st -> meaning) : Prop := {
  im_clone : forall s v, evalue_ok def v -> computes R s (i_clone I v) (m_clone (F s) v) /\
    forall c, m_clone (F s) v = Done c -> evalue_ok def c;
  im_eq : forall s v w, evalue_ok def v -> evalue_ok def w -> computes R s (i_eq I v w) (m_eq (F s) v w);
  im_pcmp : forall s v w, evalue_ok def v -> evalue_ok def w -> computes R s (i_pcmp I v w) (m_pcmp (F s) v w);
  im_cmp : forall s v w, evalue_ok def v -> evalue_ok def w -> computes R s (i_cmp I v w) (m_cmp (F s) v w);
  im_debug : forall s v o out, evalue_ok def v -> computes R s (i_debug I o v out) (m_debug (F s) o v out);
  im_display : forall s v o out, evalue_ok def v -> computes R s (i_display I o v out) (m_display (F s) o v out)
}.

(** User code that, besides leaving live memory alone, keeps no block and destroys nothing of its own. *)
Definition harmless (s s' : st) : Prop :=
  keeps s s' /\ List.length (blocks s') = List.length (blocks s) /\ destroyed (events s') = destroyed (events s).

(** ** The program on plain values *)

(** [loc] tells boxes apart: only copies of one box share it. *)
Inductive kacell : Type := KABox (id loc : nat) (v : evalue) | KAVal (id : nat) (v : evalue) | KAGone.

(** [kdead]: values destroyed so far; [kmade]: heap blocks used; [kboxes]: boxes made. Every value made is numbered. *)
Record kastate : Type := KAState {
  kcells : list kacell;
  knext : nat;
  kdead : list (nat * evalue);
  kmade : nat;
  kboxes : nat
}.
Definition ka0 : kastate := KAState [] 0 [] 0 0.

(** The place of a variant in the definition. *)
Fixpoint place (n : string) (l : list (string * vkind)) : N :=
  match l with [] => 0 | (m, _) :: r => if String.eqb n m then 0 else 1 + place n r end.

Section Plain.
Variable E : env.                   (* only for the number of tags and the layout of tuples *)
Variable def : edef.

(** Storing this value takes a heap block. *)
Definition needs_block (v : evalue) : bool :=
  match assoc (ev_variant v) (e_variants def) with
  | Some k => match storage k with Some U => negb (h_size U =? 0) | None => false end
  | None => false
  end.

(** The variant whose payload has the type named [src]. *)
Definition payload_variant (src : string) : option string :=
  option_map fst (find (fun vk => existsb (fun n => String.eqb n src) (from_keys (snd vk))) (e_variants def)).

Definition kset (i : nat) (y : kacell) (a : kastate) : kastate :=
  KAState (put i y (kcells a)) (knext a) (kdead a) (kmade a) (kboxes a).

(** A value goes into a container, in variable [i] or ([None]) in a new one. *)
Definition kplace (i : option nat) (y : kacell) (l : list kacell) : list kacell :=
  match i with Some i => put i y l | None => l ++ [y] end.
Definition kstore (fail : bool) (i : option nat) (id : nat) (v : evalue) (a : kastate) : kobs * kastate :=
  if needs_block v && fail then
    (KSawPanic PanicNullAlloc, KAState (kplace i KAGone (kcells a)) (knext a) (kdead a ++ [(id, v)]) (kmade a) (kboxes a))
  else
    (KNothing, KAState (kplace i (KABox id (kboxes a) v) (kcells a)) (knext a) (kdead a)
                 (if needs_block v then S (kmade a) else kmade a) (S (kboxes a))).

Definition kfresh (a : kastate) : kastate := KAState (kcells a) (S (knext a)) (kdead a) (kmade a) (kboxes a).

(** The value in box [loc] becomes [v]. *)
Definition kwrite (loc : nat) (v : evalue) (l : list kacell) : list kacell :=
  map (fun y => match y with
                | KABox id l _ => if Nat.eqb l loc then KABox id loc v else y
                | _ => y
                end) l.

(** The type of the only field of a variant. *)
Definition only_field (n : string) : option rty :=
  match assoc n (e_variants def) with Some (KTuple [t]) => Some t | _ => None end.

(** What the program sees of user code it called. *)
Definition ksee {A} (f : A -> kobs) (r : outcome A) : kobs :=
  match r with Done a => f a | Panics p => KSawPanic p end.

Definition kastep (G : meaning) (fail : bool) (o : kop) (a : kastate) : option (kobs * kastate) :=
  match o with
  | KNew v => Some (KNothing, KAState (kcells a ++ [KAVal (knext a) v]) (S (knext a)) (kdead a) (kmade a) (kboxes a))
  | KFrom i =>
      match nth_error (kcells a) i with
      | Some (KAVal id v) => Some (kstore fail (Some i) id v a)
      | _ => None
      end
  | KFromPayload src vals =>
      match payload_variant src with
      | Some n => Some (kstore fail None (knext a) (EV n vals) (kfresh a))
      | None => None
      end
  | KClone i =>
      match nth_error (kcells a) i with
      | Some (KABox _ _ v) =>
          match m_clone G v with
          | Done c => Some (kstore fail None (knext a) c (kfresh a))
          | Panics p => Some (KSawPanic p, KAState (kcells a ++ [KAGone]) (knext a) (kdead a) (kmade a) (kboxes a))
          end
      | _ => None
      end
  | KCopy i =>
      match nth_error (kcells a) i with
      | Some (KABox id loc v) =>
          if e_copy def then Some (KNothing, KAState (kcells a ++ [KABox id loc v]) (knext a) (kdead a) (kmade a) (kboxes a))
          else None
      | _ => None
      end
  | KEq i j =>
      match nth_error (kcells a) i, nth_error (kcells a) j with
      | Some (KABox _ _ v), Some (KABox _ _ w) => Some (ksee KSawBool (m_eq G v w), a)
      | _, _ => None
      end
  | KPartialCmp i j =>
      match nth_error (kcells a) i, nth_error (kcells a) j with
      | Some (KABox _ _ v), Some (KABox _ _ w) => Some (ksee KSawPartial (m_pcmp G v w), a)
      | _, _ => None
      end
  | KCmp i j =>
      match nth_error (kcells a) i, nth_error (kcells a) j with
      | Some (KABox _ _ v), Some (KABox _ _ w) => Some (ksee KSawOrd (m_cmp G v w), a)
      | _, _ => None
      end
  | KDebug i o out =>       (* the options reach only the wrapping (properties C25 and C52) *)
      match nth_error (kcells a) i with
      | Some (KABox _ _ v) =>
          Some (ksee (fun r => let r := derived_debug o (e_container def) "value" r in KSawText ((out ++ fst r)%string, snd r))
                     (m_debug G default_opts v EmptyString), a)
      | _ => None
      end
  | KDebugValue i _ out =>
      match nth_error (kcells a) i with
      | Some (KABox _ _ v) => Some (ksee KSawText (m_debug G default_opts v out), a)
      | _ => None
      end
  | KDisplay i _ out =>
      match nth_error (kcells a) i with
      | Some (KABox _ _ v) => Some (ksee KSawText (m_display G default_opts v out), a)
      | _ => None
      end
  | KView i =>
      match nth_error (kcells a) i with
      | Some (KABox _ _ v) => Some (KSawValues [v], a)
      | _ => None
      end
  | KTag i =>
      match nth_error (kcells a) i with
      | Some (KABox _ _ v) => Some (KSawTag (place (ev_variant v) (e_variants def)), a)
      | _ => None
      end
  | KModify i n f =>
      match nth_error (kcells a) i, only_field n with
      | Some (KABox _ loc v), Some _ =>
          Some (KNothing, KAState (kwrite loc (EV n (map f (ev_fields v))) (kcells a)) (knext a) (kdead a) (kmade a) (kboxes a))
      | _, _ => None
      end
  | KAssign i n val =>      (* the old value is destroyed *)
      match nth_error (kcells a) i, only_field n with
      | Some (KABox id loc v), Some _ =>
          let new := EV n [val] in
          Some (KNothing, KAState (put i (KABox (knext a) loc new) (kwrite loc new (kcells a)))
                            (S (knext a)) (kdead a ++ [(id, v)]) (kmade a) (kboxes a))
      | _, _ => None
      end
  | KIntoInner i | KFromTagged i =>
      match nth_error (kcells a) i with
      | Some (KABox id _ v) => Some (KSawValues [v], kset i (KAVal id v) a)
      | _ => None
      end
  | KDrop i =>
      match nth_error (kcells a) i with
      | Some (KABox _ _ v) => Some (KNothing, kset i KAGone a)      (* nothing is destroyed *)
      | _ => None
      end
  | KDropVal i =>
      match nth_error (kcells a) i with
      | Some (KAVal id v) =>
          Some (KNothing, KAState (put i KAGone (kcells a)) (knext a) (kdead a ++ [(id, v)]) (kmade a) (kboxes a))
      | _ => None
      end
  end.

(** Values given to the program's calls are values of the enum; [from_tagged_box] is used on tuple
    variants of several fields only where the compiler lays the tuple out like the [repr(C)] struct
    (property C28); [as_mut_ref] is used at the type of the variant
    held; there is a tag for the variants stored (property C27). *)
Definition kcontract (G : meaning) (a : kastate) (o : kop) : Prop :=
  match o with
  | KNew v => evalue_ok def v
  | KFromPayload src vals =>
      match payload_variant src with Some n => evalue_fits E def (EV n vals) | None => False end
  | KFrom i => forall id v, nth_error (kcells a) i = Some (KAVal id v) -> tag_fits E def (ev_variant v)
  | KClone i =>
      forall id loc v c, nth_error (kcells a) i = Some (KABox id loc v) -> m_clone G v = Done c -> tag_fits E def (ev_variant c)
  | KModify i n f =>
      forall id loc v, nth_error (kcells a) i = Some (KABox id loc v) ->
        ev_variant v = n /\ evalue_ok def (EV n (map f (ev_fields v)))
  | KAssign i n val =>
      forall id loc v, nth_error (kcells a) i = Some (KABox id loc v) -> ev_variant v = n /\ evalue_ok def (EV n [val])
  | KFromTagged i =>
      forall id loc v k, nth_error (kcells a) i = Some (KABox id loc v) -> In (ev_variant v, k) (e_variants def) ->
        several_fields k -> readable_as (reprC (kind_types k)) (tuple_layout E (kind_types k))
  | _ => True
  end.

(** The program compiles and keeps the contracts at every step, whatever the allocator and the user's
    impls do. *)
Fixpoint kfollows (F : st -> meaning) (p : kprog) (a : kastate) : Prop :=
  match p with
  | KStop => True
  | KDo o k =>
      forall s, kcontract (F s) a o /\
      forall fail, match kastep (F s) fail o a with Some (r, a') => kfollows F (k r) a' | None => False end
  end.

(** The run on plain values; [G n] is what user code does at step [n], and [fails] says at which steps
    the allocator fails. *)
Fixpoint karun (p : kprog) (G : nat -> meaning) (fails : list bool) (a : kastate) : list kobs * kastate :=
  match p with
  | KStop => ([], a)
  | KDo o k =>
      match kastep (G 0%nat) (hd false fails) o a with
      | Some (r, a') => let (l, e) := karun (k r) (fun n => G (S n)) (tl fails) a' in (r :: l, e)
      | None => ([], a)
      end
  end.

(** The allocator has no memory for the block in which [v] would be stored. *)
Definition no_room (v : evalue) (s : st) : bool :=
  match assoc (ev_variant v) (e_variants def) with
  | Some k => match storage k with Some U => no_block E U s | None => false end
  | None => false
  end.

(** Destroying an enum value without a [Drop] impl: the destructors of its fields. *)
Definition value_destructors (v : evalue) : list (string * leafval) :=
  match assoc (ev_variant v) (e_variants def) with
  | Some k => map (fun y => (ty_name (fst y), snd y)) (filter (fun y => ty_drop (fst y)) (combine (kind_types k) (ev_fields v)))
  | None => []
  end.

Definition kdead_destructors (l : list (nat * evalue)) : list (string * leafval) :=
  flat_map (fun y => value_destructors (snd y)) l.

End Plain.

(** The allocator has no memory for the block the call needs. A clone is stored in the state in which
    looking at the box with the user's [clone] ends. *)
Definition kstarved (E : env) (def : edef) (x : expansion) (I : impls) (o : kop) (c : list kcell) (s : st) : bool :=
  match o with
  | KFrom i => match nth_error c i with Some (KVal v) => no_room E def v s | _ => false end
  | KFromPayload src vals => match payload_variant def src with Some n => no_room E def (EV n vals) s | None => false end
  | KClone i =>
      match nth_error c i with
      | Some (KBox w) =>
          match macro_ref E x (option evalue) w (fun v _ => bind (i_clone I v) (fun c => ret (Some c))) None s with
          | Ok (Some c) s' => no_room E def c s'
          | _ => false
          end
      | _ => false
      end
  | _ => false
  end.

(** At which calls of a run from state [s] that happens. *)
Fixpoint kshortages (E : env) (def : edef) (x : expansion) (I : impls) (p : kprog) (c : list kcell) (s : st) : list bool :=
  match p with
  | KStop => []
  | KDo o k =>
      kstarved E def x I o c s ::
      match kstep E x I o c with
      | None => []
      | Some m =>
          match m s with
          | Ok (r, c') s' => kshortages E def x I (k r) c' s'
          | Panicked q s' => kshortages E def x I (k (KSawPanic q)) (kafter_panic o c) s'
          | UB _ => []
          end
      end
  end.

(** The states in which the calls of a run from state [s] are made, and what user code does in them. *)
Fixpoint kstates (E : env) (x : expansion) (I : impls) (p : kprog) (c : list kcell) (s : st) : list st :=
  match p with
  | KStop => []
  | KDo o k =>
      s ::
      match kstep E x I o c with
      | None => []
      | Some m =>
          match m s with
          | Ok (r, c') s' => kstates E x I (k r) c' s'
          | Panicked q s' => kstates E x I (k (KSawPanic q)) (kafter_panic o c) s'
          | UB _ => []
          end
      end
  end.
Definition kmeanings (E : env) (x : expansion) (I : impls) (F : st -> meaning) (p : kprog) (s : st) (n : nat) : meaning :=
  F (nth n (kstates E x I p [] s) s).

(** The state in which the user's code run by call [o] ends, started in state [s] on the values in the
    variables; [s] itself if the call runs none. *)
Definition ended {A} (m : M A) (s : st) : st := match m s with Ok _ t | Panicked _ t => t | UB _ => s end.
Definition kcalled (I : impls) (o : kop) (a : kastate) (s : st) : st :=
  let one (f : evalue -> st) i := match nth_error (kcells a) i with Some (KABox _ _ v) => f v | _ => s end in
  let two (f : evalue -> evalue -> st) i j := one (fun v => one (f v) j) i in
  match o with
  | KClone i => one (fun v => ended (i_clone I v) s) i
  | KEq i j => two (fun v w => ended (i_eq I v w) s) i j
  | KPartialCmp i j => two (fun v w => ended (i_pcmp I v w) s) i j
  | KCmp i j => two (fun v w => ended (i_cmp I v w) s) i j
  | KDebug i _ _ => one (fun v => ended (i_debug I default_opts v EmptyString) s) i
  | KDebugValue i _ out => one (fun v => ended (i_debug I default_opts v out) s) i
  | KDisplay i _ out => one (fun v => ended (i_display I default_opts v out) s) i
  | _ => s
  end.

(** The user's own work in a run from state [s]: for every call, the states before and after it. *)
Fixpoint kprivate (E : env) (def : edef) (x : expansion) (I : impls) (F : st -> meaning) (p : kprog) (c : list kcell)
    (s : st) (a : kastate) : list (st * st) :=
  match p with
  | KStop => []
  | KDo o k =>
      (s, kcalled I o a s) ::
      match kastep def (F s) (kstarved E def x I o c s) o a, kstep E x I o c with
      | Some (r, a'), Some m =>
          match m s with
          | Ok (_, c') s' => kprivate E def x I F (k r) c' s' a'
          | Panicked _ s' => kprivate E def x I F (k r) (kafter_panic o c) s' a'
          | UB _ => []
          end
      | _, _ => []
      end
  end.

(** How much a quantity grew by it. *)
Definition grown (f : st -> nat) (l : list (st * st)) : Z :=
  fold_right (fun y n => Z.of_nat (f (snd y)) - Z.of_nat (f (fst y)) + n)%Z 0%Z l.

Definition kcell_id (c : kacell) : list nat := match c with KABox id _ _ | KAVal id _ => [id] | KAGone => [] end.

(** The numbers of the values still in a variable. *)
Definition klive_ids (a : kastate) : list nat := flat_map kcell_id (kcells a).

(** A program that never lets an enum value it took out go out of scope nor overwrites one. *)
Fixpoint keeps_values (p : kprog) : Prop :=
  match p with
  | KStop => True
  | KDo o k => match o with KDropVal _ | KAssign _ _ _ => False | _ => True end /\ forall r, keeps_values (k r)
  end.

(** How often the destructor of type [fst d] ran on the value [snd d]. *)
Definition same_destructor : forall d e : string * leafval, {d = e} + {d <> e}.
Proof. decide equality; [|apply string_dec]. apply list_eq_dec. decide equality. apply N.eq_dec. Defined.
Definition times (d : string * leafval) (l : list (string * leafval)) : nat := count_occ same_destructor l d.
