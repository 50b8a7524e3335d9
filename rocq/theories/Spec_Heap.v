(* What it means for a call to leave documents alone. *)
From Coq Require Import List ZArith Bool.
From Verif Require Import PyBase Model_Objects Model_Filters Model_Filestruct Model_Docstruct Model_Heap.
Import ListNotations.
Local Open Scope Z_scope.

(* Every object that existed is what it was. *)
Definition untouched (h h' : heap) : Prop :=
  forall l c, nth_error h l = Some c -> nth_error h' l = Some c.

(* Every object that existed is what it was, except those at the locations P. *)
Definition only (P : loc -> Prop) (h h' : heap) : Prop :=
  forall l c, nth_error h l = Some c -> ~ P l -> nth_error h' l = Some c.

(* A call returns the document d' of the functional model, or raises as it does. *)
Definition gives (h : heap) (r : res hdoc) (d' : res doc) : Prop :=
  match d' with
  | Ok v => exists nd, r = Ok nd /\ doc_val h nd = Ok v
  | Exc e => r = Exc e
  | Loop => r = Loop
  end.

(* Two documents that read the same, but for the key env_num of index entries. *)
Definition ent_but_env (e e' : ient) : Prop := with_env None e = with_env None e'.
Definition dict_but_env (s s' : slot) : Prop :=
  match s, s' with SDict e, SDict e' => ent_but_env e e' | _, _ => s = s' end.
Definition slot_but_env (s s' : slot) : Prop :=
  match s, s' with SList l, SList l' => Forall2 dict_but_env l l' | _, _ => dict_but_env s s' end.
Definition but_env (v v' : doc) : Prop :=
  Forall2 (Forall2 slot_but_env) (d_index v) (d_index v') /\ d_cache v' = d_cache v /\ d_data v' = d_data v.

(* The catalog of a document is already cached. *)
Definition catalog_cached (v : doc) : Prop := exists tr g k o,
  pyget (d_cache v) 0 = Ok (PDict tr) /\ dget K_Root tr = Some (PRef g k) /\ pyget (d_cache v) k = Ok o /\ o <> PNone.
(* No cached object stream is under construction *)
Definition no_envelope (h : heap) (d : hdoc) : Prop :=
  forall c l x f s e, cache_at h (hd_cache d) = Ok c -> In (Some l) c -> nth_error h l <> Some (CEnv x f s e).

(* The cells of the last row of a document *)
Definition last_cells (h : heap) (d : hdoc) : res (list hslot) :=
  let* rows := rows_at h (hd_index d) in let* rl := pyget rows (-1) in row_at h rl.
(* Programs that keep several documents at hand: a call applies to the document with the
   given number; a new document gets the next number. *)
Inductive call :=
| Update (i : nat) (num : Z) (o : obj)
| Add (i : nat) (o : obj)
| Read (i : nat) (o : obj).

Section WithZlib.
Context {ZL : Zlib}.

Definition pick {A} (l : list A) (i : nat) : res A := of_opt EUnsupported (nth_error l i).

(* with Python objects; the values read are listed *)
Fixpoint run (p : list call) (docs : list hdoc) : hm (list hdoc * list obj) :=
  match p with
  | [] => hret (docs, [])
  | Update i num o :: r =>
      do d <- hlift (pick docs i); do x <- new_obj o; do nd <- h_update_object d num x;
      run r (docs ++ [nd])
  | Add i o :: r =>
      do d <- hlift (pick docs i); do x <- new_obj o; do (nd, _) <- h_add_object d x;
      run r (docs ++ [nd])
  | Read i o :: r =>
      do d <- hlift (pick docs i); do v <- h_get_object d o;
      do (docs', out) <- run r docs; hret (docs', v :: out)
  end.

(* with documents as values: no call has any effect on the other documents *)
Fixpoint ideal (p : list call) (docs : list doc) : res (list doc * list obj) :=
  match p with
  | [] => Ok (docs, [])
  | Update i num o :: r =>
      let* d := pick docs i in let* nd := update_object d num o in ideal r (docs ++ [nd])
  | Add i o :: r =>
      let* d := pick docs i in let* (nd, _) := add_object d o in ideal r (docs ++ [nd])
  | Read i o :: r =>
      let* d := pick docs i in let* (v, d') := get_object d o in
      let* (docs', out) := ideal r (lset docs i d') in Ok (docs', v :: out)
  end.
End WithZlib.
