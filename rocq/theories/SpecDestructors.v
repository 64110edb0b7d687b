(** What destructors that do things must leave alone. What the program is supposed to do is in [SpecDropPanics.v]. *)
From Coq Require Import NArith String Bool List.
From Verif Require Import Words Config Pointer Mem Box SpecMem Session SpecSession DropPanics SpecDropPanics Destructors.
Import ListNotations.
Local Open Scope N_scope.

Section Polite.
Variable E : env.
Variable act : string -> leafval -> st -> st * bool.

(** The block behind a variable: address and size. *)
Definition its_block (y : cell) : option (N * N) :=
  match y with
  | CBox U w => if h_size U =? 0 then None else Some (tp_as_ptr (tgt E) w, h_size U)
  | CRaw U p | CRust U p => if h_size U =? 0 then None else Some (p, h_size U)
  | _ => None
  end.

(** The variable whose value the call destroys. *)
Definition slot (o : op) : option nat :=
  match o with Assign i _ | AssignPtr i _ | RawAssign i _ | RustDrop i | DropValue i => Some i | _ => None end.

(** From [s] to [t] no block behind a variable is freed, and none but that of variable [j] changes. The blocks of [others] are left alone, too. *)
Definition spares (others : st) (c : list cell) (j : option nat) (s t : st) : Prop :=
  (forall i y p n al, nth_error c i = Some y -> its_block y = Some (p, n) -> In (Block p n al) (blocks s) ->
     In (Block p n al) (blocks t) /\ (j <> Some i -> forall q, p <= q < p + n -> bytes t q = bytes s q)) /\
  (forall b, In b (blocks others) -> In b (blocks s) ->
     In b (blocks t) /\ forall q, b_base b <= q < b_base b + b_size b -> bytes t q = bytes s q).

(** The destructors the call runs. *)
Definition victims (o : op) (c : list cell) (s : st) : list (string * leafval) :=
  let at_ U p := match read_at U p s with Ok v _ => destructors U v | _ => [] end in
  match o with
  | NewBox _ U val _ => if (h_size U =? 0) || no_block E U s then destructors U val else []
  | Assign i _ | AssignPtr i _ => match nth_error c i with Some (CBox U w) => at_ U (tp_as_ptr (tgt E) w) | _ => [] end
  | RawAssign i _ => match nth_error c i with Some (CRaw U p) => at_ U p | _ => [] end
  | RustDrop i => match nth_error c i with Some (CRust U p) => at_ U p | _ => [] end
  | DropValue i => match nth_error c i with Some (CVal U v) => destructors U v | _ => [] end
  | _ => []
  end.

(** In every call of a run from state [s], the destructors run leave alone what the program's variables stand for. *)
Fixpoint polite (others : st) (p : dprog) (c : list cell) (s : st) : Prop :=
  match p with
  | DStop => True
  | DDo o k =>
      (forall n v t, In (n, v) (victims o c s) -> spares others c (slot o) s t -> spares others c (slot o) t (fst (act n v t))) /\
      match e_step E act o c with
      | None => True
      | Some m =>
          match m false s with
          | DOk (x, c') s' => polite others (k (Saw x)) c' s'
          | DPanic q s' => polite others (k (caught q)) (d_after_panic o c) s'
          | DAbort _ | DUB _ => True
          end
      end
  end.

(** Whether the destructor panics. *)
Definition panics : st -> string -> leafval -> bool := fun s n v => snd (act n v s).

(** The state when these destructors have run, one after the other. *)
Definition after (l : list (string * leafval)) (s : st) : st :=
  fold_left (fun t '(n, v) => log (EvDrop n v) (fst (act n v t))) l s.

(** Destructors that run no others. *)
Definition lonely : Prop := forall n v s, destroyed (events (fst (act n v s))) = destroyed (events s).

(** Destructors that leave alone blocks of these sizes, wherever they are. *)
Definition minds_sizes (z : N -> Prop) : Prop :=
  forall n v s b, In b (blocks s) -> z (b_size b) ->
    In b (blocks (fst (act n v s))) /\ forall q, b_base b <= q < b_base b + b_size b -> bytes (fst (act n v s)) q = bytes s q.

(** The boxes of the program are all of these sizes, or zero-sized. *)
Fixpoint of_sizes (z : N -> Prop) (p : dprog) : Prop :=
  match p with
  | DStop => True
  | DDo o k => match o with NewBox _ U _ _ => h_size U = 0 \/ z (h_size U) | _ => True end /\ forall x, of_sizes z (k x)
  end.

(** As [SpecDropPanics.d_shortages]. *)
Fixpoint e_shortages (p : dprog) (c : list cell) (s : st) : list bool :=
  match p with
  | DStop => []
  | DDo o k =>
      starved E o s ::
      match e_step E act o c with
      | None => []
      | Some m =>
          match m false s with
          | DOk (x, c') s' => e_shortages (k (Saw x)) c' s'
          | DPanic q s' => e_shortages (k (caught q)) (d_after_panic o c) s'
          | DAbort _ | DUB _ => []
          end
      end
  end.

End Polite.
