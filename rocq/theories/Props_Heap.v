(* Properties of documents that share Python objects *)
From Coq Require Import String.
From Verif Require Import PyBase Model_Objects Model_Filters Spec_Filters Model_Filestruct Model_Docstruct.
From Verif Require Import Cases_Docstruct Model_Heap Spec_Heap Facts_Heap Facts_Sharing.
From Coq Require Import List ZArith Bool Lia.
Import ListNotations.
Local Open Scope Z_scope.

(* ---- C34 ---- *)
(* No object that existed is changed, so every document there was reads as it did; the result is that
   of the functional model. x is where the given object is. *)
Theorem C34_update : forall {ZL : Zlib} h d v x o num h' r,
  doc_val h d = Ok v -> cached_val h x = Ok o -> h_update_object d num x h = (h', r) ->
  untouched h h' /\ (forall d2 v2, doc_val h d2 = Ok v2 -> doc_val h' d2 = Ok v2) /\ gives h' r (update_object v num o).
Proof.
  intros ZL h d v x o num h' r V X R. destruct (update_run _ _ _ _ _ _ V X _ _ R) as (U & G & _).
  split; [exact U|]. split; [|exact G]. intros d2 v2. exact (doc_mono h h' d2 v2 U).
Qed.
Print Assumptions C34_update.
Theorem C34_add : forall {ZL : Zlib} h d v x o h' r,
  doc_val h d = Ok v -> cached_val h x = Ok o -> h_add_object d x h = (h', r) ->
  untouched h h' /\ (forall d2 v2, doc_val h d2 = Ok v2 -> doc_val h' d2 = Ok v2) /\
  match add_object v o with
  | Ok (v', i) => exists nd, r = Ok (nd, snd i) /\ doc_val h' nd = Ok v'
  | Exc e => r = Exc e
  | Loop => r = Loop
  end.
Proof.
  intros ZL h d v x o h' r V X R. destruct (add_run _ _ _ _ _ V X _ _ R) as (U & G).
  split; [exact U|]. split; [intros d2 v2; exact (doc_mono h h' d2 v2 U)|].
  destruct (add_object v o) as [[v' i]|e|]; [|exact G|exact G]. destruct G as (nd & A & B & _). eauto.
Qed.
Print Assumptions C34_add.
(* Any later use: programs that update, extend and read many documents, old and new ones, get what
   they would get if every document were a value of its own. *)
Theorem C34_program : forall {ZL : Zlib} p h docs vals h' r,
  Forall2 (fun d v => doc_val h d = Ok v) docs vals -> NoDup (map hd_cache docs) -> run p docs h = (h', r) ->
  match ideal p vals with
  | Ok (vals', out) => exists docs', r = Ok (docs', out) /\ Forall2 (fun d v => doc_val h' d = Ok v) docs' vals'
  | Exc e => r = Exc e
  | Loop => r = Loop
  end.
Proof.
  intros ZL p h docs vals h' r F N R. pose proof (program_run p docs vals h (conj F N) h' r R) as W.
  destruct (ideal p vals) as [[vals' out]|e|]; [|exact W|exact W]. destruct W as (docs' & A & B & _). eauto.
Qed.
Print Assumptions C34_program.

(* documents of their own, an update shared by two later documents, and readings in between *)
Section Cases.
#[local] Existing Instance store_codec.
Definition fresh_doc0 : doc := Eval vm_compute in get_ok no_doc (let* (so, _) := squash blank_doc in of_opt ETypeError so).
Definition start : heap * hdoc := Eval vm_compute in
  match new_doc fresh_doc0 [] with (h, Ok d) => (h, d) | (h, _) => (h, mk_hdoc 0%nat 0%nat 0%nat) end.
Example C34_start : doc_val (fst start) (snd start) = Ok fresh_doc0. Proof. vm_compute. reflexivity. Qed.
Definition prog : list call :=
  [Read 0 (PRef 0 1); Update 0 1 (PDict [(B "/A", PInt 1)]); Spec_Heap.Add 0 (PStr (B "/X")); Spec_Heap.Add 1 (PInt 7);
   Read 0 (PRef 0 1); Read 1 (PRef 0 1); Read 3 (PRef 0 4); Update 3 4 PNone; Read 2 (PRef 0 4)].
Definition got {A B} (a : A) (b : B) (x : heap * res (A * B)) : A * B := match snd x with Ok y => y | _ => (a, b) end.
Definition prog_run := Eval vm_compute in run prog [snd start] (fst start).
Example C34_program_case : exists docs out h', run prog [snd start] (fst start) = (h', Ok (docs, out)) /\
  List.length docs = 5%nat /\ nth_error out 2 = Some (PDict [(B "/A", PInt 1)]) /\ nth_error out 1 = nth_error out 0 /\
  nth_error out 3 = Some (PInt 7) /\ nth_error out 4 = Some (PStr (B "/X")).
Proof.
  exists (fst (got [] [] prog_run)), (snd (got [] [] prog_run)), (fst prog_run). split; [vm_compute; reflexivity|]. repeat split; vm_compute; reflexivity.
Qed.
End Cases.

(* commit: when the first revision does not ask for a cross-reference stream whose number is still
   to be chosen and no object stream is under construction, no object that existed changes, except
   that the catalog is read into the cache of the input before a first revision is written. *)
Theorem C34_commit_partial : forall {ZL : Zlib} h d v h' r,
  doc_val h d = Ok v -> no_envelope h d -> first_xsn v <> Ok (Some (-1)) -> h_commit d h = (h', r) ->
  only (fun l => l = hd_cache d) h h' /\
  (length (d_index v) <> 1%nat \/ catalog_cached v -> untouched h h' /\ forall d2 v2, doc_val h d2 = Ok v2 -> doc_val h' d2 = Ok v2).
Proof.
  intros ZL h d v h' r V NE NX R. destruct (commit_frame _ _ _ _ _ V NE NX R) as (O & U). split; [exact O|].
  intros Q. split; [exact (U Q)|]. intros d2 v2. exact (doc_mono h h' d2 v2 (U Q)).
Qed.
Print Assumptions C34_commit_partial.
(* force_xref_stream: the only change is the /Filter of the trailer that the input shares *)
Theorem C34_force_partial : forall {ZL : Zlib} h d v t c p filt h' r,
  doc_val h d = Ok v -> cache_at h (hd_cache d) = Ok (Some t :: c) -> ~ In (Some t) c ->
  h_force_xref_stream d p filt h = (h', r) ->
  only (fun l => l = t) h h' /\ (filt = [] -> untouched h h') /\
  (doc_val h' d = Ok v \/ filt <> [] /\
   exists tr cv, d_cache v = PDict tr :: cv /\
     doc_val h' d = Ok (mk_doc (d_index v) (PDict (dset K_Filter' (PStr filt) tr) :: cv) (d_data v))).
Proof.
  intros ZL h d v t c p filt h' r V C N R. pose proof (force_frame h d v p filt (Some t :: c) t h' r V C eq_refl R) as F.
  pose proof (filtered_val h d v filt c t h' V C N F) as W.
  destruct F as [U|(NF & O & _)].
  - split; [intros l x E _; exact (U l x E)|]. split; [intros _; exact U|]. left. exact (doc_mono h h' d v U V).
  - split; [exact O|]. split; [intros E; contradiction|]. destruct W as [W|W]; [now left | right; split; assumption].
Qed.
Print Assumptions C34_force_partial.
(* group_obj_into_stream: the only changes are the env_num of entries of the last row *)
Theorem C34_group_partial : forall {ZL : Zlib} h d v row env nums h' r,
  doc_val h d = Ok v -> last_cells h d = Ok row -> (forall rv, last_row v = Ok rv -> rv <> []) -> d_cache v <> [] ->
  h_group d env nums h = (h', r) ->
  only (fun l => In (HAt l) row) h h' /\ exists v', doc_val h' d = Ok v' /\ but_env v v'.
Proof.
  intros ZL h d v row env nums h' r V L NR NC R. pose proof (group_frame h d v env nums h' r V NR NC R row L) as T.
  split; [|exact (tagged_doc _ h h' d v T V)]. intros l c E N. destruct (T l c E) as [F|(F & _)]; [exact F | contradiction].
Qed.
Print Assumptions C34_group_partial.

Section More.
#[local] Existing Instance store_codec.
Definition st : heap := fst start.
Definition d0 : hdoc := snd start.
(* the hypotheses hold for a new document, and the functions return *)
Example C34_commit_case : no_envelope st d0 /\ first_xsn fresh_doc0 <> Ok (Some (-1)) /\ catalog_cached fresh_doc0 /\
  exists h' nd, h_commit d0 st = (h', Ok nd) /\ nd <> d0.
Proof.
  split; [|split; [|split]].
  - intros c l x f s e E I. vm_compute in E. inversion E; subst c. clear E. vm_compute in I.
    repeat (destruct I as [I|I]; [inversion I; subst; vm_compute; discriminate|]). contradiction.
  - vm_compute. discriminate.
  - unfold catalog_cached. do 4 eexists. split; [vm_compute; reflexivity|]. split; [vm_compute; reflexivity|]. split; [vm_compute; reflexivity|]. discriminate.
  - vm_compute. do 2 eexists. split; [reflexivity | discriminate].
Qed.
Example C34_force_case : exists t c, cache_at st (hd_cache d0) = Ok (Some t :: c) /\ ~ In (Some t) c /\
  (exists h' nd, h_force_xref_stream d0 true [] st = (h', Ok nd)) /\ exists row, last_cells st d0 = Ok row /\ row <> [].
Proof.
  vm_compute. do 2 eexists. split; [reflexivity|]. split.
  - intros H. repeat (destruct H as [H|H]; [discriminate H|]). contradiction.
  - split; [do 2 eexists; reflexivity|]. eexists. split; [reflexivity | discriminate].
Qed.
Definition doc_of (x : heap * res hdoc) : hdoc := match snd x with Ok d => d | _ => d0 end.
Definition after_force := Eval vm_compute in h_force_xref_stream d0 false (B "/FlateDecode") st.
Definition after_group := Eval vm_compute in h_group d0 None [] st.
(* force_xref_stream with a filter changes what the input gives for its trailer *)
Theorem C34_force_refuted : exists h d v h' nd, doc_val h d = Ok v /\ h_force_xref_stream d false (B "/FlateDecode") h = (h', Ok nd) /\
  (exists o, snd (h_get_object d (PRef 0 0) h) = Ok o /\ snd (h_get_object d (PRef 0 0) h') <> Ok o).
Proof.
  exists st, d0, fresh_doc0, (fst after_force), (doc_of after_force). split; [vm_compute; reflexivity|]. split; [vm_compute; reflexivity|].
  eexists. split; [vm_compute; reflexivity | vm_compute; discriminate].
Qed.
Print Assumptions C34_force_refuted.
(* after group_obj_into_stream the input, which could be committed, cannot be any more *)
Theorem C34_group_refuted : exists h d v h' nd, doc_val h d = Ok v /\ h_group d None [] h = (h', Ok nd) /\
  (exists nd2, snd (h_commit d h) = Ok nd2) /\ snd (h_commit d h') = Exc EIndexError.
Proof.
  exists st, d0, fresh_doc0, (fst after_group), (doc_of after_group). split; [vm_compute; reflexivity|]. split; [vm_compute; reflexivity|].
  split; [eexists; vm_compute; reflexivity | vm_compute; reflexivity].
Qed.
Print Assumptions C34_group_refuted.
(* commit of a document prepared with force_xref_stream: the second commit of the same document fails *)
Definition forced : heap * hdoc := Eval vm_compute in
  match (do e <- h_force_xref_stream d0 false (B "/FlateDecode"); h_group e None []) st with (h, Ok d) => (h, d) | (h, _) => (h, d0) end.
Definition after_commit := Eval vm_compute in h_commit (snd forced) (fst forced).
Theorem C34_commit_refuted : exists h d v h' nd, doc_val h d = Ok v /\ h_commit d h = (h', Ok nd) /\
  doc_val h' d <> Ok v /\ snd (h_commit d h') = Exc EIndexError.
Proof.
  exists (fst forced), (snd forced), (get_ok no_doc (doc_val (fst forced) (snd forced))), (fst after_commit), (doc_of after_commit).
  split; [vm_compute; reflexivity|]. split; [vm_compute; reflexivity|]. split; [vm_compute; discriminate | vm_compute; reflexivity].
Qed.
Print Assumptions C34_commit_refuted.
End More.
