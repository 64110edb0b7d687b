(** What properties C68 and C69 are about: the variables of a client without the blocks of its pointers, and numberings of live blocks. *)
From Coq Require Import NArith List.
From Verif Require Import Words Config Pointer Mem Box SpecMem Session Provenance.
Import ListNotations.
Local Open Scope N_scope.

(** The variable without the blocks of its pointers. *)
Definition erase (x : pcell) : cell :=
  match x with
  | PBox U w => CBox U w
  | PRaw U p => CRaw U (fst p)
  | PRust U p => CRust U (fst p)
  | PVal U v => CVal U v
  | PGone => CGone
  end.

(** The numbered blocks are those of the memory. *)
Record numbered (ps : pst) : Prop := {
  nb_blocks : map snd (p_blocks ps) = blocks (p_mem ps);
  nb_once : NoDup (map fst (p_blocks ps));
  nb_old : forall q, In q (p_blocks ps) -> (fst q < p_next ps)%nat
}.

(** Every value the program boxes takes up memory. *)
Fixpoint big (p : prog) : Prop :=
  match p with
  | Stop => True
  | Do o k => match o with NewBox _ U _ _ => h_size U <> 0 | _ => True end /\ forall x, big (k x)
  end.

(** A live block that was exposed has byte [a]. *)
Definition exposed_at (ps : pst) (a : N) : Prop :=
  exists id b, In (id, b) (p_blocks ps) /\ In id (p_exposed ps) /\ b_base b <= a < b_base b + b_size b.

(** Live blocks do not overlap. *)
Record tidy (l : list block) : Prop := {
  td_sizes : Forall (fun b => b_size b <> 0) l;
  td_apart : ForallOrdPairs (fun a b => b_base a + b_size a <= b_base b \/ b_base b + b_size b <= b_base a) l
}.

(** What user code may do: use memory of its own. *)
Definition separate (s s' : st) : Prop := keeps s s' /\ (tidy (blocks s) -> tidy (blocks s')).
