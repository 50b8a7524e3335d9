(* Properties of page trees and of the functions that edit whole documents *)
From Coq Require Import String Permutation.
From Verif Require Import PyBase Model_Filters Model_Objects Model_Filestruct Model_Text Model_Docstruct Model_Api.
From Verif Require Import Spec_Filters Spec_Objects Spec_Filestruct Spec_Docstruct Spec_Pages.
From Verif Require Import Facts_Base Facts_Obj Facts_Revision Facts_Doc Facts_Edit Facts_Pages Facts_Remove Facts_Checks Cases_Docstruct Cases_Pages.
From Coq Require Import ZifyBool ZifyNat.

Definition paged_refs : list ref := [(0, 3); (0, 5); (0, 6); (0, 8); (0, 9); (0, 10); (0, 11)].
(* the document used in the examples has what the theorems ask for *)
Example paged_case : editable paged_doc /\ @well_formed store_codec paged_doc paged_tree /\
  @tidy store_codec paged_doc paged_tree /\ @sane store_codec paged_doc paged_tree /\
  map leaf_num (leaves paged_tree) = [3; 5; 6; 8] /\ node_nums paged_tree = [2; 4; 7] /\ depth paged_tree = 2%nat.
Proof.
  assert (E : editable paged_doc) by (apply editableb_ok; vm_compute; reflexivity).
  assert (T : @tidy store_codec paged_doc paged_tree /\ @sane store_codec paged_doc paged_tree).
  { apply (tidyb_ok 30 _ _ paged_refs); [now apply editable_coherent|]. vm_compute. reflexivity. }
  split; [exact E|]. split; [apply (wellb_ok 9); vm_compute; reflexivity|]. split; [apply T|]. split; [apply T|]. split; [reflexivity|]. split; reflexivity.
Qed.

(* ---- C37 ---- *)
(* base: what the shared default dictionary holds before the call, empty for the first one *)
Theorem C37_flat_page_tree_partial : forall {ZL : Zlib} d t fuel base,
  coherent d -> has_tree d t -> (depth t < fuel)%nat ->
  exists l base' d', flat_page_tree fuel d base None = Ok (Some l, base', d') /\
    Forall2 (entry_of base) l (leaves t) /\ same_values d d'.
Proof.
  intros ZL d t fuel base C H D. destruct (flat_spec t fuel d base C H D) as (l & b & d1 & E & R & L & _). exists l, b, d1. split; [exact E|]. split; [|apply R].
  eapply Facts_Pages.Forall2_impl; [|exact L]. intros x y [H1 H2]. split; [exact H1|]. intros k r. rewrite inherited_spec, H2. tauto.
Qed.
Print Assumptions C37_flat_page_tree_partial.
(* pages(): every page with its own entries and those it inherits *)
Theorem C37_pages_partial : forall {ZL : Zlib} d t fuel base,
  coherent d -> has_tree d t -> (depth t < fuel)%nat ->
  exists l base' d', pages fuel d base None = Ok (l, base', d') /\
    Forall2 (view_of base) l (leaves t) /\ same_values d d'.
Proof.
  intros ZL d t fuel base C H D. destruct (pages_spec t fuel d base C H D) as (l & b & d1 & E & R & L & _). exists l, b, d1. split; [exact E|]. split; [|apply R].
  eapply Facts_Pages.Forall2_impl; [|exact L]. intros x y V k r. rewrite attribute_spec, (V k). tauto.
Qed.
Print Assumptions C37_pages_partial.
(* a second document gets the attributes of the root of the first one *)
Theorem C37_refuted : exists (f1 f2 : bytes) d1 d2 t2 l1 base d1' l2 base' d2',
  @loads store_codec 10 f1 = Ok d1 /\ @loads store_codec 10 f2 = Ok d2 /\ @has_tree store_codec d2 t2 /\
  @flat_page_tree store_codec 10 d1 [] None = Ok (l1, base, d1') /\
  @flat_page_tree store_codec 10 d2 base None = Ok (Some l2, base', d2') /\
  ~ Forall2 (entry_of []) l2 (leaves t2).
Proof.
  exists paged_file, blank_file, paged_doc, loaded_doc, blank_tree. do 6 eexists. split; [vm_compute; reflexivity|]. split; [vm_compute; reflexivity|].
  split; [apply (@plant_ok store_codec 9); vm_compute; reflexivity|]. split; [vm_compute; reflexivity|]. split; [vm_compute; reflexivity|].
  intro H. inversion H as [|p x ? ? [_ E] _]; subst. specialize (E K_Rotate None). destruct E as [E _]. specialize (E ltac:(apply inherited_spec; vm_compute; reflexivity)). vm_compute in E. discriminate.
Qed.
Print Assumptions C37_refuted.
Example C37_case : @coherent store_codec paged_doc /\ @has_tree store_codec paged_doc paged_tree /\ (depth paged_tree < 3)%nat /\
  exists l base' d', @flat_page_tree store_codec 3 paged_doc [] None = Ok (Some l, base', d') /\
    map (fun x => (fst x, dget K_Rotate (snd x))) l = [(PRef 0 3, Some (PInt 90)); (PRef 0 5, Some (PInt 180)); (PRef 0 6, Some (PInt 180)); (PRef 0 8, Some (PInt 90))].
Proof.
  destruct paged_case as (E & W & _). split; [now apply editable_coherent|]. split; [apply W|]. split; [vm_compute; lia|].
  do 3 eexists. split; [vm_compute; reflexivity|]. reflexivity.
Qed.

(* ---- C38 ---- *)
(* the effect of a rotation, for a page tree without repeated pages *)
Theorem C38_rotate : forall {ZL : Zlib} d t fuel base a pgs,
  editable d -> has_tree d t -> NoDup (map leaf_num (leaves t)) -> (depth t < fuel)%nat ->
  (forall d' base', rotate fuel d base a pgs = Ok (d', base') -> rotatable base t pgs /\ turned_doc base t pgs a d d') /\
  (rotatable base t pgs -> exists d' base', rotate fuel d base a pgs = Ok (d', base')).
Proof.
  intros ZL d t fuel base a pgs E H N D. destruct (rotate_spec t fuel d base a pgs E H N D) as [H1 H2]. split; [|exact H2]. intros d' b' R. destruct (H1 d' b' R) as (X & Y & _). auto.
Qed.
Print Assumptions C38_rotate.
Theorem C38_rotations_compose : forall {ZL : Zlib} d t fuel base a b pgs d1 base1,
  editable d -> has_tree d t -> NoDup (map leaf_num (leaves t)) -> (depth t < fuel)%nat ->
  rotate fuel d base a pgs = Ok (d1, base1) ->
  exists d2 base2 d3 base3, rotate fuel d1 base1 b pgs = Ok (d2, base2) /\ rotate fuel d base (a + b) pgs = Ok (d3, base3) /\
    same_values d3 d2.
Proof. intros ZL d t fuel base a b pgs d1 base1. exact (rotate_twice t fuel d base a b pgs d1 base1). Qed.
Print Assumptions C38_rotations_compose.
Theorem C38_angle_range : forall {ZL : Zlib} d t fuel base a pgs d' base' i x,
  editable d -> has_tree d t -> NoDup (map leaf_num (leaves t)) -> (depth t < fuel)%nat ->
  rotate fuel d base a pgs = Ok (d', base') -> nth_error (leaves t) i = Some x -> selected pgs i ->
  exists p z z', value d' (leaf_num x) = Ok (PDict p) /\ dget K_Rotate p = Some (PInt z') /\ 0 <= z' < 360 /\
    turned base x z /\ (z mod 90 = 0 -> a mod 90 = 0 -> z' mod 90 = 0).
Proof.
  intros ZL d t fuel base a pgs d' base' i x E H N D R NE SEL. destruct (C38_rotate d t fuel base a pgs E H N D) as [H1 _]. destruct (H1 d' base' R) as (_ & [_ _ S _]).
  destruct (S i x NE SEL) as (z & T & V). exists (dset K_Rotate (PInt ((z + a) mod 360)) (leaf_page x)), z, ((z + a) mod 360). split; [exact V|].
  split; [apply dget_dset_eq|]. split; [apply Z.mod_pos_bound; lia|]. split; [exact T|]. intros Z0 A0. lia.
Qed.
Print Assumptions C38_angle_range.
Example C38_case : editable paged_doc /\ @has_tree store_codec paged_doc paged_tree /\ NoDup (map leaf_num (leaves paged_tree)) /\
  rotatable [] paged_tree [1; 2] /\ exists d1 b1 p5 p6, @rotate store_codec 3 paged_doc [] (-90) [1; 2] = Ok (d1, b1) /\
  @value store_codec d1 5 = Ok (PDict p5) /\ dget K_Rotate p5 = Some (PInt 90) /\ @value store_codec d1 6 = Ok (PDict p6) /\ dget K_Rotate p6 = Some (PInt 270).
Proof.
  destruct paged_case as (E & (H & _ & _ & N & _) & _). split; [exact E|]. split; [exact H|]. split; [exact N|].
  assert (R : exists d1 b1, @rotate store_codec 3 paged_doc [] (-90) [1; 2] = Ok (d1, b1)) by (do 2 eexists; vm_compute; reflexivity).
  split.
  - destruct R as (d1 & b1 & R). apply (@C38_rotate store_codec paged_doc paged_tree 3 [] (-90) [1; 2] E H N ltac:(vm_compute; lia)) in R. tauto.
  - do 4 eexists. split; [vm_compute; reflexivity|]. split; [vm_compute; reflexivity|]. split; [vm_compute; reflexivity|]. split; vm_compute; reflexivity.
Qed.

(* ---- C39 ---- *)
(* ord: the order in which Python enumerates a set of references *)
Theorem C39_remove_pages : forall {ZL : Zlib} (ord : list ref -> list ref) d t fuel base l d' base',
  (forall s, Permutation (ord s) s) -> editable d -> well_formed d t -> tidy d t -> (depth t < fuel)%nat ->
  remove_pages ord fuel d base l = Ok (d', base') -> exists t', pages_removed d t l d' t'.
Proof. intros ZL ord d t fuel base l d' base' O. exact (remove_spec ord O fuel d t base l d' base'). Qed.
Print Assumptions C39_remove_pages.
(* it does not fail on valid indexes, when the objects of the pages are there without a cycle *)
Theorem C39_remove_succeeds : forall {ZL : Zlib} (ord : list ref -> list ref) d t,
  (forall s, Permutation (ord s) s) -> editable d -> well_formed d t -> tidy d t -> sane d t ->
  exists fuel0, forall fuel base l, (fuel0 <= fuel)%nat ->
    (forall z, In z l -> - Z.of_nat (length (leaves t)) <= z < Z.of_nat (length (leaves t))) ->
    exists d' base', remove_pages ord fuel d base l = Ok (d', base').
Proof. intros ZL ord d t O. exact (remove_total ord O d t). Qed.
Print Assumptions C39_remove_succeeds.
Theorem C39_keep_pages : forall {ZL : Zlib} (ord : list ref -> list ref) d t fuel base keep d' base',
  (forall s, Permutation (ord s) s) -> editable d -> well_formed d t -> tidy d t -> (depth t < fuel)%nat ->
  keep_pages ord fuel d base keep = Ok (d', base') ->
  exists t' l, (forall j, In j l <-> 0 <= j < Z.of_nat (length (leaves t)) /\ ~ In j keep) /\ pages_removed d t l d' t'.
Proof.
  intros ZL ord d t fuel base keep d' base' O E W T D K. destruct (keep_spec ord O fuel d t base keep d' base' E W T D K) as (t' & P).
  exists t', (dropped (length (leaves t)) keep). split; [intro j; apply dropped_in|exact P].
Qed.
Print Assumptions C39_keep_pages.
Example C39_case : (forall s : list ref, Permutation (rev s) s) /\ exists d' base', @remove_pages store_codec (@rev _) 30 paged_doc [] [2; -4] = Ok (d', base') /\
  map (fun n => match @value store_codec d' n with Ok (PDict x) => dget K_Count x | _ => None end) [2; 4; 7] = [Some (PInt 2); Some (PInt 1); Some (PInt 1)] /\
  @value store_codec d' 10 = Ok PNone /\ @value store_codec d' 9 = @value store_codec paged_doc 9.
Proof.
  split; [intro s; apply Permutation_sym, Permutation_rev|]. do 2 eexists. split; [vm_compute; reflexivity|]. split; [vm_compute; reflexivity|]. split; vm_compute; reflexivity.
Qed.

(* ---- C41 ---- *)
Theorem C41_key_pages : forall n k, 0 <= n -> match k with KInt _ => n <> 0 | KSlice _ _ s => s <> Some 0 end ->
  exists l, key_pages n k = Ok l /\ forall j, In j l <-> selects n k j.
Proof. intros n k. exact (key_spec n k). Qed.
Print Assumptions C41_key_pages.
Theorem C41_getitem : forall {ZL : Zlib} (ord : list ref -> list ref) d t fuel base k d' base',
  (forall s, Permutation (ord s) s) -> editable d -> well_formed d t -> tidy d t -> (depth t < fuel)%nat ->
  getitem ord fuel d base k = Ok (d', base') ->
  exists t' l, (forall j, In j l <-> 0 <= j < Z.of_nat (length (leaves t)) /\ ~ selects (Z.of_nat (length (leaves t))) k j) /\
    pages_removed d t l d' t'.
Proof. intros ZL ord d t fuel base k d' base' O. exact (getitem_spec ord O fuel d t base k d' base'). Qed.
Print Assumptions C41_getitem.
Theorem C41_getitem_succeeds : forall {ZL : Zlib} (ord : list ref -> list ref) d t,
  (forall s, Permutation (ord s) s) -> editable d -> well_formed d t -> tidy d t -> sane d t ->
  exists fuel0, forall fuel base k, (fuel0 <= fuel)%nat ->
    match k with KInt _ => leaves t <> [] | KSlice _ _ s => s <> Some 0 end ->
    exists d' base', getitem ord fuel d base k = Ok (d', base').
Proof. intros ZL ord d t O. exact (getitem_total ord O d t). Qed.
Print Assumptions C41_getitem_succeeds.
Example C41_case : (forall j, in_slice 10 (Some (-2)) None (Some (-3)) j <-> j = 8 \/ j = 5 \/ j = 2) /\
  exists d' base', @getitem store_codec (fun l => l) 30 paged_doc [] (KSlice (Some (-1)) None (Some (-2))) = Ok (d', base') /\
  match @plant store_codec 9 d' with Some t => map leaf_num (leaves t) | None => [] end = [5; 8].
Proof.
  split; [intro j; unfold in_slice, from_end; cbv iota beta zeta; change (0 <? -3) with false; change (-2 <? 0) with true; cbv iota; change (- -3) with 3; lia|]. do 2 eexists. split; [vm_compute; reflexivity|]. vm_compute. reflexivity.
Qed.

(* ---- C42 ---- *)
(* when it ends, it gives exactly the references that are reached, and there is no cycle *)
Theorem C42_dependencies_partial : forall {ZL : Zlib} d o fuel l d',
  coherent d -> (forall g n, reaches d o (g, n) -> 0 <= n) -> dependencies fuel d o = Ok (l, d') ->
  (forall r, In r l <-> reaches d o r) /\ same_values d d' /\ Acc (fun b a => follows d a b) o.
Proof. intros ZL d o fuel l d' C N E. destruct (deps_spec fuel d o l d' C N E) as (R & S & A). split; [exact S|]. split; [apply R|exact A]. Qed.
Print Assumptions C42_dependencies_partial.
(* it ends if there is no cycle and the references have objects *)
Theorem C42_terminates_partial : forall {ZL : Zlib} d o, coherent d -> Acc (fun b a => follows d a b) o -> resolved d o ->
  exists fuel l d', dependencies fuel d o = Ok (l, d').
Proof. intros ZL d o C A R. destruct (deps_total d o A R) as (f & H). destruct (H d (read_only_refl d C)) as ([l d'] & E). eauto. Qed.
Print Assumptions C42_terminates_partial.
(* otherwise it never ends *)
Theorem C42_cycles_diverge : forall {ZL : Zlib} d o fuel, coherent d -> resolved d o -> ~ Acc (fun b a => follows d a b) o ->
  dependencies fuel d o = Loop.
Proof.
  intros ZL d o fuel C R NA. destruct (dependencies fuel d o) as [[l d']|e|] eqn:E; [|exfalso; exact (deps_noexc fuel d o e C R E)|reflexivity].
  exfalso. apply NA. apply (deps_spec fuel d o l d' C (resolved_nonneg _ _ R) E).
Qed.
Print Assumptions C42_cycles_diverge.
Theorem C42_refuted : exists (f : bytes) d d1, @loads store_codec 10 f = Ok d /\ update_object d 3 (PList [PInt 1; PRef 0 3]) = Ok d1 /\
  forall fuel, @dependencies store_codec fuel d1 (PRef 0 3) = Loop.
Proof.
  exists blank_file, loaded_doc, cyclic_doc. split; [vm_compute; reflexivity|]. split; [vm_compute; reflexivity|]. intro fuel.
  assert (V : @value store_codec cyclic_doc 3 = Ok (PList [PInt 1; PRef 0 3])) by (vm_compute; reflexivity).
  apply C42_cycles_diverge.
  - apply editable_coherent, editableb_ok. vm_compute. reflexivity.
  - intros g n RE. apply (closed_reach cyclic_doc [(0, 3)]) in RE; [|vm_compute; reflexivity|intros x I; exact I]. destruct RE as [E|[]]. injection E as <- <-. split; [lia|eauto].
  - intro A. assert (X : forall o, Acc (fun b a => @follows store_codec cyclic_doc a b) o -> o = PRef 0 3 \/ o = PList [PInt 1; PRef 0 3] -> False).
    { intros o Ao. induction Ao as [o _ IH]. intros [->| ->].
      - apply (IH (PList [PInt 1; PRef 0 3])); [|auto]. apply Fo_ref; [lia|exact V].
      - apply (IH (PRef 0 3)); [|auto]. apply Fo_list. cbn. auto. }
    apply (X _ A). auto.
Qed.
Print Assumptions C42_refuted.
Example C42_case : exists l d', @dependencies store_codec 30 paged_doc (PRef 0 6) = Ok (l, d') /\ l = [(0, 6); (0, 10); (0, 9)] /\
  @resolved store_codec paged_doc (PRef 0 6) /\ Acc (fun b a => @follows store_codec paged_doc a b) (PRef 0 6).
Proof.
  do 2 eexists. split; [vm_compute; reflexivity|]. split; [reflexivity|]. destruct paged_case as (_ & _ & _ & S & _).
  destruct (S (PRef 0 6, leaf_page (nth 2 (leaves paged_tree) (PNone, [], [])), snd (nth 2 (leaves paged_tree) (PNone, [], [])))) as [A R]; [vm_compute; auto|]. split; [exact R|exact A].
Qed.

(* ---- C55 ---- *)
Theorem C55_update_version : forall {ZL : Zlib} d c cat v0 d1 v,
  editable d -> catalog_at d c cat -> version d = Ok (v0, d1) ->
  exists d2 d3 w cat', update_version d v = Ok d2 /\ version d2 = Ok (w, d3) /\ greatest [v0; v] w /\
    (forall n, 0 <= n -> n <> c -> value d2 n = value d n) /\
    catalog_at d2 c cat' /\ forall k, k <> K_Version -> dget k cat' = dget k cat.
Proof.
  intros ZL d c cat v0 d1 v E C V. destruct (upgrade_spec d c cat v0 d1 v E C V) as (d2 & d3 & w & cat' & H1 & H2 & H3 & _ & _ & H4 & H5 & H6). exists d2, d3, w, cat'. auto 10.
Qed.
Print Assumptions C55_update_version.
Example C55_case : exists cat d1 d2 d3, @catalog_at store_codec paged_doc 1 cat /\ @version store_codec paged_doc = Ok (B "1.4", d1) /\
  @update_version store_codec paged_doc (B "1.5") = Ok d2 /\ @version store_codec d2 = Ok (B "1.5", d3) /\ greatest [B "1.4"; B "1.5"] (B "1.5").
Proof.
  do 4 eexists. split; [apply catalog_of_ok; vm_compute; reflexivity|]. split; [vm_compute; reflexivity|]. split; [vm_compute; reflexivity|]. split; [vm_compute; reflexivity|].
  apply smax_greatest. reflexivity.
Qed.
