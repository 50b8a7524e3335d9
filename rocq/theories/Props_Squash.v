(* Properties of in_use, squash, metadata and concat *)
From Coq Require Import String Sorted.
From Verif Require Import PyBase Model_Filters Model_Objects Model_Filestruct Model_Text Model_Docstruct Model_Api.
From Verif Require Import Spec_Filters Spec_Objects Spec_Filestruct Spec_Docstruct Spec_Pages Spec_Squash.
From Verif Require Import Facts_Base Facts_Obj Facts_Doc Facts_Edit Facts_Pages Facts_Checks Facts_Squash Facts_Concat Cases_Docstruct Cases_Pages Cases_Squash.
From Coq Require Import ZifyBool ZifyNat.

(* ---- C69 ---- *)
Theorem C69_in_use : forall d row, open_row d row -> row <> [] -> Spec_Docstruct.tidy row ->
  exists l, in_use d (-1) = Ok l /\ StronglySorted Z.lt (map snd l) /\ forall r, In r l <-> names d r (snd r).
Proof.
  intros d row O N T. destruct (in_use_spec row T N) as (l & E & S & I). exists l. split; [unfold in_use; destruct O as [ix Ei]; rewrite Ei, pyget_last; exact E|]. split; [exact S|].
  intros [g n]. rewrite I, (names_row d row _ _ O). cbn [snd]. split; intros (A & e & B & D & X); (split; [exact A|]; exists e; split; [exact B|]; split; [exact D|]; congruence).
Qed.
Print Assumptions C69_in_use.
Example C69_case : exists row, open_row gap_doc row /\ row <> [] /\ Spec_Docstruct.tidy row /\
  in_use gap_doc (-1) = Ok [(0, 1); (0, 2); (0, 3); (0, 4); (0, 5); (0, 7); (0, 8); (0, 9); (0, 11)].
Proof.
  assert (E : editable gap_doc) by (apply editableb_ok; vm_compute; reflexivity). destruct (proj1 (proj2 (proj2 E))) as [row O]. exists row. split; [exact O|]. split; [|split; [exact (editable_tidy _ _ E O)|vm_compute; reflexivity]].
  pose proof (open_last _ _ O) as L. intros ->. vm_compute in L. discriminate.
Qed.

(* ---- C35 ---- *)
(* full statement: squash d is made of the live objects of d, renumbered from 1, with every
   reference renamed.  Missing below: documents with object streams, documents whose cells do
   not carry their own numbers (see C35_twice_refuted), null objects; streams are copied without
   a change (see C35_streams_refuted) *)
Theorem C35_squash_partial : forall {ZL : Zlib} d c cat d' d1,
  editable d -> self_numbered d -> catalog_at d c cat -> all_storable d -> squash d = Ok (Some d', d1) ->
  same_values d d1 /\ exists l f, live_numbers d l /\ renumbering d 1 l f /\ squashed d l f d'.
Proof.
  intros ZL d c cat d' d1 E S C K Q. destruct (squash_inv d d' d1 c cat E S C K Q) as (R & l & f & A & B & D & _). split; [exact (ro_values _ _ R)|]. exists l, f. auto.
Qed.
Print Assumptions C35_squash_partial.
Theorem C35_squash_succeeds : forall {ZL : Zlib} d c cat,
  editable d -> self_numbered d -> catalog_at d c cat -> (forall r n, names d r n -> exists v, value d n = Ok v) ->
  (exists row e0, open_row d row /\ cell row 0 (SDict e0)) -> (exists x, first_xsn d = Ok x) -> (exists v d1, version d = Ok (v, d1)) ->
  (exists a b ra rb, a <> b /\ names d ra a /\ names d rb b) -> exists d' d1, squash d = Ok (Some d', d1).
Proof. intros ZL. exact (@squash_total ZL). Qed.
Print Assumptions C35_squash_succeeds.
Example gap_case : editable gap_doc /\ self_numbered gap_doc /\ @all_storable store_codec gap_doc /\ @exact_root store_codec gap_doc /\
  @has_tree store_codec gap_doc gap_tree /\ exact_refs gap_doc gap_tree /\ first_xsn gap_doc = Ok None /\
  counted gap_tree 3 /\ map leaf_num (leaves gap_tree) = [3; 5; 8].
Proof.
  destruct (@squashable_ok store_codec gap_doc) as (A & B & _); [vm_compute; reflexivity|].
  split; [apply editableb_ok; vm_compute; reflexivity|]. split; [exact A|]. split; [exact B|]. split; [apply rootb_ok; vm_compute; reflexivity|].
  split; [apply (plant_ok 9); vm_compute; reflexivity|]. split; [apply exactb_ok; vm_compute; reflexivity|]. split; [vm_compute; reflexivity|]. split; vm_compute; reflexivity.
Qed.
Example C35_case : exists c cat d1, @catalog_at store_codec gap_doc c cat /\ @squash store_codec gap_doc = Ok (Some squash_doc, d1) /\
  (forall r n, names gap_doc r n -> exists v, @value store_codec gap_doc n = Ok v) /\
  (exists row e0, open_row gap_doc row /\ cell row 0 (SDict e0)) /\ (exists v d2, @version store_codec gap_doc = Ok (v, d2)) /\
  names gap_doc (0, 7) 7 /\ names gap_doc (0, 11) 11 /\
  @value store_codec gap_doc 8 = Ok (PDict [(B "/Annots", PList [PRef 0 11]); (K_Parent, PRef 0 7); (K_Type, PStr K_Page)]) /\
  @value store_codec squash_doc 7 = Ok (PDict [(B "/Annots", PList [PRef 0 9]); (K_Parent, PRef 0 6); (K_Type, PStr K_Page)]).
Proof.
  destruct (@squashable_ok store_codec gap_doc) as (_ & _ & C); [vm_compute; reflexivity|]. destruct (@catalog_of store_codec gap_doc) as [[c cat]|] eqn:E; [|discriminate].
  exists c, cat. eexists. split; [apply (catalog_of_ok _ _ _ E)|]. split; [vm_compute; reflexivity|]. split; [exact C|]. split; [|split; [do 2 eexists; vm_compute; reflexivity|]].
  - exists (match last_row gap_doc with Ok r => r | _ => [] end). eexists. split; [apply last_open; vm_compute; reflexivity|]. split; [lia|]. vm_compute. reflexivity.
  - split; [apply nameb_ok; vm_compute; reflexivity|]. split; [apply nameb_ok; vm_compute; reflexivity|]. split; vm_compute; reflexivity.
Qed.
(* the references of stream dictionaries are not renamed *)
Theorem C35_streams_refuted : exists d d' d1 l f i n v v',
  editable d /\ self_numbered d /\ @squash store_codec d = Ok (Some d', d1) /\ live_numbers d l /\ renumbering d 1 l f /\
  nth_error l i = Some n /\ @value store_codec d n = Ok v /\ @value store_codec d' (Z.of_nat i + 1) = Ok v' /\ ~ renamed f v v'.
Proof.
  destruct (@squashable_ok store_codec form_doc) as (A & K & _); [vm_compute; reflexivity|]. assert (E : editable form_doc) by (apply editableb_ok; vm_compute; reflexivity).
  destruct (@catalog_of store_codec form_doc) as [[c cat]|] eqn:EC; [|discriminate].
  destruct (@squash store_codec form_doc) as [[[d'|] d1]| |] eqn:Q; [|vm_compute in Q; discriminate|vm_compute in Q; discriminate|vm_compute in Q; discriminate].
  destruct (squash_inv form_doc d' d1 c cat E A (proj1 (catalog_of_ok _ _ _ EC)) K Q) as (_ & l & f & LN & RN & SQ & _).
  assert (EL : exists i, nth_error l i = Some 6). { apply In_nth_error, LN. exists (0, 6). apply nameb_ok. vm_compute. reflexivity. }
  destruct EL as [i Ei]. destruct (sq_values _ _ _ _ SQ i 6 Ei) as (v & v' & V & C & V').
  exists form_doc, d', d1, l, f, i, 6, v, v'. split; [exact E|]. split; [exact A|]. split; [exact Q|]. split; [exact LN|]. split; [exact RN|]. split; [exact Ei|]. split; [exact V|]. split; [exact V'|].
  assert (EV : v = PStream [(B "/Font", PRef 0 5)] (Some (B "q")) (Some (B "q"))) by (vm_compute in V; injection V as <-; reflexivity). subst v.
  intro R. inversion C as [|? ? SF _]; subst; [|inversion SF; contradiction].
  assert (E5 : exists j, nth_error l j = Some 5). { apply In_nth_error, LN. exists (0, 5). apply nameb_ok. vm_compute. reflexivity. }
  destruct E5 as [j Ej]. pose proof (proj1 RN j 5 (0, 5) Ej ltac:(apply nameb_ok; vm_compute; reflexivity)) as F5.
  inversion R as [| | |? ? ? ? F|? X]; subst; [|exact X]. inversion F as [|? ? ? ? [_ P] _]; subst. cbn [snd] in P. 
  assert (RR : forall g n o, renamed f (PRef g n) o -> o = PRef (fst (f (g, n))) (snd (f (g, n)))) by (intros g n o RN0; inversion RN0; subst; [reflexivity|contradiction]).
  apply RR in P. rewrite F5 in P. cbn [fst snd] in P. assert (X2 : 5 = 1 + Z.of_nat j) by congruence.
  (* object 4 is deleted, so object 5 does not keep its number *)
  assert (J : j = 4%nat) by lia. subst j. clear - LN Ej.
  destruct LN as [S I]. assert (IN : forall n, In n l -> 1 <= n /\ n <> 4).
  { intros n J. apply I in J. destruct J as ([g k] & NM). pose proof (names_pos _ _ _ NM). split; [lia|]. intros ->. assert (g = 0 /\ k = 4) as [-> ->].
    { destruct NM as (row & e & O & _ & C & D & X). injection X as -> ->. split; [|reflexivity]. pose proof (open_last _ _ O) as L. vm_compute in L. injection L as <-. destruct C as [_ C]. vm_compute in C. injection C as <-. discriminate. }
    apply nameb_ok in NM. vm_compute in NM. discriminate. }
  destruct l as [|a [|b [|c0 [|d0 [|e l]]]]]; cbn in Ej; try discriminate. injection Ej as ->.
  pose proof (IN a ltac:(cbn; auto)). pose proof (IN b ltac:(cbn; auto)). pose proof (IN c0 ltac:(cbn; auto)). pose proof (IN d0 ltac:(cbn; auto)).
  inversion S as [|? ? S1 F1]; subst. inversion S1 as [|? ? S2 F2]; subst. inversion S2 as [|? ? S3 F3]; subst. inversion S3 as [|? ? S4 F4]; subst.
  inversion F1; inversion F2; inversion F3; inversion F4; subst. lia.
Qed.
Print Assumptions C35_streams_refuted.
(* squashing twice: the cells of the first result carry the numbers of d, so that the second
   call does not find the objects *)
Theorem C35_twice_refuted : exists d d' d1 e, @squash store_codec d = Ok (Some d', d1) /\ editable d' /\ @squash store_codec d' = Exc e.
Proof.
  exists gap_doc, squash_doc. do 2 eexists. split; [vm_compute; reflexivity|]. split; [apply editableb_ok; vm_compute; reflexivity|]. vm_compute. reflexivity.
Qed.
Print Assumptions C35_twice_refuted.
(* a reference to a deleted object leads to another object *)
Theorem C35_dangling_refuted : exists d d' d1 p p', @squash store_codec d = Ok (Some d', d1) /\ editable d /\ self_numbered d /\
  @value store_codec d 3 = Ok (PDict p) /\ dget (B "/A") p = Some (PRef 0 4) /\ @value store_codec d 4 = Ok PNone /\
  @value store_codec d' 3 = Ok (PDict p') /\ dget (B "/A") p' = Some (PRef 0 4) /\ @value store_codec d' 4 = Ok (PInt 2).
Proof.
  destruct (@squashable_ok store_codec dangling_doc) as (A & _ & _); [vm_compute; reflexivity|].
  exists dangling_doc. do 4 eexists. split; [vm_compute; reflexivity|]. split; [apply editableb_ok; vm_compute; reflexivity|]. split; [exact A|].
  split; [vm_compute; reflexivity|]. split; [reflexivity|]. split; [vm_compute; reflexivity|]. split; [vm_compute; reflexivity|]. split; [reflexivity|]. vm_compute. reflexivity.
Qed.
Print Assumptions C35_dangling_refuted.

(* ---- C36 ---- *)
(* full statement: metadata (squash d) = metadata d.  It fails: *)
Theorem C36_refuted : exists file d s d1 d2 d3 m m', @loads store_codec 10 file = Ok d /\
  @metadata store_codec d = Ok (m, d1) /\ In (B "Title", Some (B "Title")) m /\
  @squash store_codec d = Ok (Some s, d2) /\ @metadata store_codec s = Ok (m', d3) /\ In (B "Title", None) m' /\ m <> m'.
Proof.
  exists info_file, info_doc. do 6 eexists. split; [vm_compute; reflexivity|]. split; [vm_compute; reflexivity|]. split; [left; reflexivity|].
  split; [vm_compute; reflexivity|]. split; [vm_compute; reflexivity|]. split; [left; reflexivity|discriminate].
Qed.
Print Assumptions C36_refuted.

(* ---- C40 ---- *)
(* full statement: the page list of concat(a, b) is that of a followed by that of b.  Missing
   below: documents with object or cross reference streams in the source, null objects; and the
   attributes that pages inherit can change (see C40_inheritance_refuted) *)
Theorem C40_concat_partial : forall {ZL : Zlib} left right (tl : bool) d tt ts a b,
  let tgt := if tl then left else right in let src := if tl then right else left in
  editable tgt -> editable src -> self_numbered src -> all_storable src -> has_tree tgt tt -> has_tree src ts -> exact_refs src ts -> exact_root src ->
  (forall x, first_xsn src = Ok (Some x) -> x <= 0) -> counted tt a -> counted ts b -> concat_docs left right tl = Ok d ->
  exists f t copies, joined tgt src f (tnum tt) d /\ has_tree d t /\ Forall2 (copy_of f) (leaves ts) copies /\
    map fst (leaves t) = (if tl then map fst (leaves tt) ++ copies else copies ++ map fst (leaves tt)) /\
    counted t (a + b) /\ tref t = tref tt /\
    (forall k, k <> K_Kids -> k <> K_Count -> dget k (tdict t) = dget k (tdict tt)).
Proof. intros ZL. exact (@concat_spec ZL). Qed.
Print Assumptions C40_concat_partial.
Example C40_case : editable loaded_doc /\ @has_tree store_codec loaded_doc blank_tree /\ counted blank_tree 1 /\ map leaf_num (leaves blank_tree) = [3] /\
  @concat_docs store_codec loaded_doc gap_doc true = Ok joined_doc /\ map leaf_num (leaves joined_tree) = [3; 5; 7; 9] /\
  @concat_docs store_codec gap_doc loaded_doc false = Ok prefixed_doc /\ map leaf_num (leaves prefixed_tree) = [5; 7; 9; 3] /\
  @has_tree store_codec joined_doc joined_tree /\ counted joined_tree 4.
Proof.
  split; [apply editableb_ok; vm_compute; reflexivity|]. split; [apply (plant_ok 9); vm_compute; reflexivity|]. split; [reflexivity|]. split; [reflexivity|].
  split; [vm_compute; reflexivity|]. split; [reflexivity|]. split; [vm_compute; reflexivity|]. split; [reflexivity|]. split; [apply (plant_ok 9); vm_compute; reflexivity|reflexivity].
Qed.
(* the appended pages inherit from the root of the target: a page that was not turned is *)
Theorem C40_inheritance_refuted : exists left right d base base' base'' d1 d2 l p p', @concat_docs store_codec left right true = Ok d /\
  editable left /\ editable right /\
  @pages store_codec 9 right base None = Ok ([p], base', d1) /\ dget K_Rotate p = None /\
  @pages store_codec 9 d base None = Ok (l ++ [p'], base'', d2) /\ dget K_Rotate p' = Some (PInt 90).
Proof.
  exists gap_doc, loaded_doc. eexists. exists []. do 4 eexists.
  set (o := match @pages store_codec 9 (get_ok no_doc (@concat_docs store_codec gap_doc loaded_doc true)) [] None with Ok (l, _, _) => l | _ => [] end).
  exists (removelast o). eexists. exists (last o []).
  split; [vm_compute; reflexivity|]. split; [apply editableb_ok; vm_compute; reflexivity|]. split; [apply editableb_ok; vm_compute; reflexivity|].
  split; [vm_compute; reflexivity|]. split; [reflexivity|]. split; [vm_compute; reflexivity|]. vm_compute. reflexivity.
Qed.
Print Assumptions C40_inheritance_refuted.
(* the root of the appended tree gets no /Parent: the result is not well formed, whatever the
   operands *)
Theorem C40_parent_refuted : exists left right d, @well_formed store_codec left blank_tree /\ @well_formed store_codec right gap_tree /\
  @concat_docs store_codec left right true = Ok d /\ @has_tree store_codec d joined_tree /\ ~ sound joined_tree.
Proof.
  exists loaded_doc, gap_doc, joined_doc. split; [apply (wellb_ok 9); vm_compute; reflexivity|]. split; [apply (wellb_ok 9); vm_compute; reflexivity|]. split; [vm_compute; reflexivity|].
  split; [apply (plant_ok 9); vm_compute; reflexivity|]. intro S.
  assert (G : forall o nd kids, sound (Node o nd kids) -> Forall (child_of (tnum (Node o nd kids))) kids) by (intros o nd kids H; inversion H; assumption).
  apply G, Forall_inv_tail, Forall_inv in S. destruct S as [g P]. vm_compute in P. discriminate.
Qed.
Print Assumptions C40_parent_refuted.
