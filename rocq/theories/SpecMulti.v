(** What a program of [Multi.v] is supposed to do: every enum's part as on plain enum values, the
    manual API's part as on plain variables; no part notices the others. *)
From Coq Require Import ZArith NArith String Bool List.
From Verif Require Import Words Config Spec Pointer Mem Box SpecMem Macro SpecMacro Session SpecSession Containers SpecContainers Multi.
Import ListNotations.
Local Open Scope N_scope.

Record mastate : Type := MAState { ma_enums : list kastate; ma_boxes : astate }.
Definition ma0 (L : list inst) : mastate := MAState (map (fun _ => ka0) L) a0.

Section Plain.
Variable E : env.
Variable L : list inst.
Variable F : nat -> st -> meaning.        (* what the user's impls for enum [i] do in each state *)

(** The contracts of the parts, whatever the allocator and the user's code do. *)
Fixpoint mfollows (p : mprog) (a : mastate) : Prop :=
  match p with
  | MStop => True
  | MEnum i o k =>
      match nth_error L i, nth_error (ma_enums a) i with
      | Some n, Some b =>
          forall s, kcontract E (in_def n) (F i s) b o /\
          forall fail, match kastep (in_def n) (F i s) fail o b with
                       | Some (r, b') => mfollows (k r) (MAState (put i b' (ma_enums a)) (ma_boxes a))
                       | None => False
                       end
      | _, _ => False
      end
  | MBox o k =>
      contract E (ma_boxes a) o /\
      forall fail, match astep fail o (ma_boxes a) with
                   | Some (r, b') => mfollows (k r) (MAState (ma_enums a) b')
                   | None => False
                   end
  | MOther _ p => mfollows p a
  end.

(** The run on plain values. [l] tells for every call the state it is made in (for the user's code)
    and whether its block cannot be had. *)
Fixpoint marun (p : mprog) (l : list (st * bool)) (a : mastate) : list mseen * mastate :=
  match p with
  | MStop => ([], a)
  | MEnum i o k =>
      match l, nth_error L i, nth_error (ma_enums a) i with
      | (s, fail) :: l, Some n, Some b =>
          match kastep (in_def n) (F i s) fail o b with
          | Some (r, b') => let (q, e) := marun (k r) l (MAState (put i b' (ma_enums a)) (ma_boxes a)) in (MSawEnum r :: q, e)
          | None => ([], a)
          end
      | _, _, _ => ([], a)
      end
  | MBox o k =>
      match l with
      | (_, fail) :: l =>
          match astep fail o (ma_boxes a) with
          | Some (r, b') => let (q, e) := marun (k r) l (MAState (ma_enums a) b') in (MSawBox r :: q, e)
          | None => ([], a)
          end
      | [] => ([], a)
      end
  | MOther _ p => marun p l a
  end.

(** The list along a run from state [s]. *)
Fixpoint mtrace (p : mprog) (c : mvars) (s : st) : list (st * bool) :=
  match p with
  | MStop => []
  | MEnum i o k =>
      match nth_error L i, menum E L i o c with
      | Some n, Some (m, l) =>
          (s, kstarved E (in_def n) (in_x n) (in_impls n) o l s) ::
          match m s with
          | Ok (r, l') s' => mtrace (k r) (set_enum i l' c) s'
          | Panicked x s' => mtrace (k (KSawPanic x)) (set_enum i (kafter_panic o l) c) s'
          | UB _ => []
          end
      | _, _ => []
      end
  | MBox o k =>
      (s, starved E o s) ::
      match step E o (mv_boxes c) with
      | Some m =>
          match m s with
          | Ok (r, l') s' => mtrace (k r) (set_boxes l' c) s'
          | Panicked x s' => mtrace (k (SawPanic x)) (set_boxes (after_panic o (mv_boxes c)) c) s'
          | UB _ => []
          end
      | None => []
      end
  | MOther f p => mtrace p c (f s)
  end.

(** ** Other code *)

(** The memory behind the boxes of an enum and of the manual API, by their words alone. *)
Definition kregion (def : edef) (y : kcell) : list (N * N) :=
  match y with
  | KBox w =>
      match nth_error (e_variants def) (N.to_nat (tb_discriminant E w)) with
      | Some (_, k) =>
          match storage k with Some U => if h_size U =? 0 then [] else [(tb_as_ptr E w, h_size U)] | None => [] end
      | None => []
      end
  | _ => []
  end.
Definition region (y : cell) : list (N * N) :=
  match y with
  | CBox U w => if h_size U =? 0 then [] else [(tb_as_ptr E w, h_size U)]
  | CRaw U p | CRust U p => if h_size U =? 0 then [] else [(p, h_size U)]
  | _ => []
  end.
Definition regions (c : mvars) : list (N * N) :=
  flat_map (fun y => flat_map (kregion (in_def (fst y))) (snd y)) (combine L (mv_enums c)) ++ flat_map region (mv_boxes c).

(** The blocks at these places stay, with their contents. Other blocks may come, go and change. *)
Definition spares (l : list (N * N)) (s s' : st) : Prop :=
  forall p n al, In (p, n) l -> In (Block p n al) (blocks s) ->
    In (Block p n al) (blocks s') /\ forall q, p <= q < p + n -> bytes s' q = bytes s q.

(** Wherever a run from state [s] comes to other code, that code leaves the boxes alone. *)
Fixpoint mpolite (p : mprog) (c : mvars) (s : st) : Prop :=
  match p with
  | MStop => True
  | MEnum i o k =>
      match menum E L i o c with
      | Some (m, l) =>
          match m s with
          | Ok (r, l') s' => mpolite (k r) (set_enum i l' c) s'
          | Panicked x s' => mpolite (k (KSawPanic x)) (set_enum i (kafter_panic o l) c) s'
          | UB _ => True
          end
      | None => True
      end
  | MBox o k =>
      match step E o (mv_boxes c) with
      | Some m =>
          match m s with
          | Ok (r, l') s' => mpolite (k r) (set_boxes l' c) s'
          | Panicked x s' => mpolite (k (SawPanic x)) (set_boxes (after_panic o (mv_boxes c)) c) s'
          | UB _ => True
          end
      | None => True
      end
  | MOther f p => spares (regions c) s (f s) /\ mpolite p c (f s)
  end.

(** What is not the crate's doing: for every piece of other code and every call of the user's impls,
    the states before and after it. *)
Fixpoint mprivate (p : mprog) (c : mvars) (s : st) (a : mastate) : list (st * st) :=
  match p with
  | MStop => []
  | MEnum i o k =>
      match nth_error L i, nth_error (ma_enums a) i, menum E L i o c with
      | Some n, Some b, Some (m, l) =>
          (s, kcalled (in_impls n) o b s) ::
          match kastep (in_def n) (F i s) (kstarved E (in_def n) (in_x n) (in_impls n) o l s) o b with
          | Some (r, b') =>
              let a' := MAState (put i b' (ma_enums a)) (ma_boxes a) in
              match m s with
              | Ok (_, l') s' => mprivate (k r) (set_enum i l' c) s' a'
              | Panicked _ s' => mprivate (k r) (set_enum i (kafter_panic o l) c) s' a'
              | UB _ => []
              end
          | None => []
          end
      | _, _, _ => []
      end
  | MBox o k =>
      match step E o (mv_boxes c), astep (starved E o s) o (ma_boxes a) with
      | Some m, Some (r, b') =>
          let a' := MAState (ma_enums a) b' in
          match m s with
          | Ok (_, l') s' => mprivate (k r) (set_boxes l' c) s' a'
          | Panicked _ s' => mprivate (k r) (set_boxes (after_panic o (mv_boxes c)) c) s' a'
          | UB _ => []
          end
      | _, _ => []
      end
  | MOther f p => (s, f s) :: mprivate p c (f s) a
  end.

(** Blocks made for the enums, and the destructors of their values. *)
Definition mmade (a : mastate) : nat := list_sum (map kmade (ma_enums a)).
Definition mdestructors (a : mastate) : list (string * leafval) :=
  flat_map (fun y => kdead_destructors (in_def (fst y)) (kdead (snd y))) (combine L (ma_enums a)) ++
  dead_destructors (dead (ma_boxes a)).

End Plain.
