(* Properties of the calls of the api that read or edit a document *)
From Coq Require Import String Sorted.
From Verif Require Import PyBase Model_Filters Model_Objects Model_Filestruct Model_Text Model_Docstruct Model_Api.
From Verif Require Import Spec_Objects Spec_Filters Spec_Filestruct Spec_Docstruct Spec_Pages Spec_Squash Spec_Calls.
From Verif Require Import Facts_Base Facts_Filters Facts_Doc Facts_Edit Facts_Squash Facts_Pages Facts_Checks Facts_Calls.
From Verif Require Import Cases_Docstruct Cases_Pages Cases_Calls.

(* ---- C83 ---- *)
Theorem C83_list_streams : forall {ZL : Zlib} d row, coherent d -> open_row d row -> Spec_Docstruct.tidy row -> row <> [] ->
  (forall l d', list_streams d = Ok (l, d') -> stream_numbers d l /\ same_values d d') /\
  (readable d -> exists l d', list_streams d = Ok (l, d')).
Proof. intros ZL. exact list_streams_spec. Qed.
Print Assumptions C83_list_streams.
Example C83_case : exists row l d', @coherent store_codec calls_doc /\ open_row calls_doc row /\ Spec_Docstruct.tidy row /\ row <> [] /\
  @list_streams store_codec calls_doc = Ok (l, d') /\ l = [4; 6; 7; 8; 13; 14].
Proof.
  assert (E : editable calls_doc) by (apply editableb_ok; vm_compute; reflexivity).
  pose proof E as (_ & _ & (row & O) & _). exists row. do 2 eexists. split; [now apply editable_coherent|]. split; [exact O|]. split; [eapply editable_tidy; eauto|].
  split; [|split; [vm_compute; reflexivity|reflexivity]]. intros ->. apply open_last in O. vm_compute in O. discriminate.
Qed.

(* ---- C84 ---- *)
(* full statement: for every stream of the document.  It fails for the streams below *)
Theorem C84_apply_filter_partial : forall {ZL : Zlib} flt ns d,
  (forall b, Forall isbyte b -> z_decompress (z_compress b) = Some b) -> editable d -> NoDup ns ->
  (forall n, In n ns -> 0 < n /\ exists v x c, value d n = Ok v /\ simple_stream v x c /\
     (supported flt \/ flt = [] /\ dget (B "/Filter") x <> None)) ->
  exists d', apply_filter d ns flt = Ok d' /\ editable d' /\
    (forall n v, In n ns -> value d n = Ok v -> exists v', value d' n = Ok v' /\ refiltered flt v v') /\
    forall k, 0 <= k -> ~ In k ns -> value d' k = value d k.
Proof. intros ZL. exact apply_filter_spec. Qed.
Print Assumptions C84_apply_filter_partial.
(* an image loses its data: what is stored is an error message *)
Theorem C84_image_refuted : exists file d x e d' x' c e', @loads store_codec 10 file = Ok d /\
  @value store_codec d 8 = Ok (PStream x (Some (B "#PDFSyntaxException: unsupported filter")) (Some e)) /\ e = B "JFIF" /\ dget (B "/Filter") x = Some (PStr (B "/DCTDecode")) /\
  @apply_filter store_codec d [8] (B "/FlateDecode") = Ok d' /\
  @value store_codec d' 8 = Ok (PStream x' (Some c) (Some e')) /\ @decode_stream store_codec (Some e') x' = Ok (Some (B "#PDFSyntaxException: unsupported filter")).
Proof. exists calls_file, calls_doc. do 6 eexists. repeat (split; [vm_compute; reflexivity|]). vm_compute. reflexivity. Qed.
Print Assumptions C84_image_refuted.
(* removing the filter of a stream that has none destroys it *)
Theorem C84_no_filter_refuted : exists file d x d' x' e', @loads store_codec 10 file = Ok d /\
  @value store_codec d 4 = Ok (PStream x (Some (B "q")) (Some (B "q"))) /\ @apply_filter store_codec d [4] [] = Ok d' /\
  @value store_codec d' 4 = Ok (PStream x' (Some (B "q")) (Some e')) /\ e' = B "#PDFSyntaxException: unsupported filter".
Proof. exists calls_file, calls_doc. do 4 eexists. repeat (split; [vm_compute; reflexivity|]). vm_compute. reflexivity. Qed.
Print Assumptions C84_no_filter_refuted.
(* an array of filters is an error *)
Theorem C84_array_refuted : exists file d x c e, @loads store_codec 10 file = Ok d /\
  @value store_codec d 13 = Ok (PStream x (Some c) e) /\ @apply_filter store_codec d [13] (B "/ASCIIHexDecode") = Exc EAttributeError.
Proof. exists calls_file, calls_doc. do 3 eexists. repeat (split; [vm_compute; reflexivity|]). vm_compute. reflexivity. Qed.
Print Assumptions C84_array_refuted.
(* the parameters of the old filter apply to the new one *)
Theorem C84_parms_refuted : exists file d x e d1 d2 x' e' w, @loads store_codec 10 file = Ok d /\
  @value store_codec d 14 = Ok (PStream x (Some (B "abbc")) (Some e)) /\
  @apply_filter store_codec d [14] (B "/ASCIIHexDecode") = Ok d1 /\ @apply_filter store_codec d1 [14] (B "/FlateDecode") = Ok d2 /\
  @value store_codec d2 14 = Ok (PStream x' (Some (B "abbc")) (Some e')) /\ @decode_stream store_codec (Some e') x' = Ok (Some w) /\ w <> B "abbc".
Proof. exists calls_file, calls_doc. do 7 eexists. repeat (split; [vm_compute; reflexivity|]). vm_compute. discriminate. Qed.
Print Assumptions C84_parms_refuted.
Example C84_case : editable calls_doc /\ (forall n, In n [6; 7] -> 0 < n /\ exists v x c, @value store_codec calls_doc n = Ok v /\ simple_stream v x c /\
     (supported (B "/ASCII85Decode") \/ B "/ASCII85Decode" = [] /\ dget (B "/Filter") x <> None)) /\
  exists d' x x', @apply_filter store_codec calls_doc [6; 7] (B "/ASCII85Decode") = Ok d' /\
    @value store_codec d' 6 = Ok (PStream x (Some (B "BT ET")) (Some (B "<~6<#'r;u~>"))) /\
    @value store_codec d' 7 = Ok (PStream x' (Some (B "Q")) (Some (B "<~;#~>"))).
Proof.
  split; [apply editableb_ok; vm_compute; reflexivity|]. split.
  - intros n [<-|[<-|[]]]; (split; [reflexivity|]); (eexists _, _, _; split; [vm_compute; reflexivity|]; split; [|left; right; right; reflexivity]); (split; [eexists; reflexivity|]; split; [repeat constructor; unfold isbyte; lia|]; split; [reflexivity|]; right; eexists; reflexivity).
  - do 3 eexists. split; [vm_compute; reflexivity|]. split; vm_compute; reflexivity.
Qed.

(* ---- C85 ---- *)
(* full statement: for every page.  It fails for a page whose /Annots is a direct array *)
Theorem C85_annotation_partial : forall {ZL : Zlib} d t fuel base i x l text rect opened,
  editable d -> has_tree d t -> (depth t < fuel)%nat -> at_index (leaves t) i x -> annots d (leaf_page x) l ->
  exists d' base', add_text_annotation fuel d base i text rect opened = Ok (d', base') /\ annotated d d' x l text rect opened.
Proof. intros ZL d t fuel base i x l text rect opened. exact (annotation_spec t fuel d base i x l text rect opened). Qed.
Print Assumptions C85_annotation_partial.
Theorem C85_refuted : exists file d t x l, @loads store_codec 10 file = Ok d /\ @has_tree store_codec d t /\ at_index (leaves t) 3 x /\
  dget (B "/Annots") (leaf_page x) = Some (PList l) /\ @add_text_annotation store_codec 10 d [] 3 (B "note") [] false = Exc EAttributeError.
Proof.
  exists paged_file, paged_doc, paged_tree. do 2 eexists. split; [vm_compute; reflexivity|]. split; [apply (@plant_ok store_codec 9); vm_compute; reflexivity|].
  split; [exists 3%nat; split; [vm_compute; reflexivity|left; reflexivity]|]. split; vm_compute; reflexivity.
Qed.
Print Assumptions C85_refuted.
(* the text is not escaped: a parenthesis ends it *)
Theorem C85_text_refuted : exists text s a, serialize (annotation text [] false) = Ok s /\ @parse_obj store_codec s 0 = Ok (PDict a) /\
  text = B "see 1) and 2)" /\ dget (B "/Contents") a = Some (PBytes (B "(see 1)")).
Proof. exists (B "see 1) and 2)"). do 2 eexists. split; [vm_compute; reflexivity|]. split; [vm_compute; reflexivity|]. split; vm_compute; reflexivity. Qed.
Print Assumptions C85_text_refuted.
Definition calls_tree : ptree := Eval vm_compute in match @plant store_codec 9 calls_doc with Some t => t | None => Leaf PNone [] end.
Example calls_has_tree : @has_tree store_codec calls_doc calls_tree.
Proof. apply (@plant_ok store_codec 9). vm_compute. reflexivity. Qed.
Example C85_case : editable calls_doc /\ exists x, at_index (leaves calls_tree) (-1) x /\ @annots store_codec calls_doc (leaf_page x) [PRef 0 12] /\
  exists d' base' o, @add_text_annotation store_codec 3 calls_doc [] (-1) (B "note") [] true = Ok (d', base') /\
    @value store_codec d' 9 = Ok (PList [PRef 0 12; PRef 0 15]) /\ @value store_codec d' 15 = Ok o.
Proof.
  split; [apply editableb_ok; vm_compute; reflexivity|]. eexists. split; [exists 0%nat; split; [vm_compute; reflexivity|right; reflexivity]|]. split.
  - right. exists (PRef 0 9), 9. split; [reflexivity|]. exists 0. split; [reflexivity|]. split; [reflexivity|]. vm_compute. reflexivity.
  - do 3 eexists. split; [vm_compute; reflexivity|]. split; vm_compute; reflexivity.
Qed.

(* ---- C86 ---- *)
(* full statement: for every page.  It fails for a page without /Contents *)
Theorem C86_page_contents_partial : forall {ZL : Zlib} d t fuel base i x l,
  coherent d -> has_tree d t -> (depth t < fuel)%nat -> at_index (leaves t) i x -> page_contents d (leaf_page x) l ->
  exists base' d', get_page_contents fuel d base i = Ok (l, base', d') /\ same_values d d'.
Proof. intros ZL d t fuel base i x l. exact (contents_spec t fuel d base i x l). Qed.
Print Assumptions C86_page_contents_partial.
Theorem C86_refuted : exists d, @blank store_codec (B "A4") = Ok d /\ @get_page_contents store_codec 3 d [] 0 = Exc EKeyError.
Proof. exists blank_doc. split; vm_compute; reflexivity. Qed.
Print Assumptions C86_refuted.
Example C86_case : exists x l, at_index (leaves calls_tree) 0 x /\ @page_contents store_codec calls_doc (leaf_page x) l /\
  map (fun o => match o with PStream _ c _ => c | _ => None end) l = [Some (B "q"); Some (B "BT ET"); Some (B "Q")].
Proof.
  eexists _, _. split; [exists 0%nat; split; [vm_compute; reflexivity|left; reflexivity]|]. split.
  - exists [PRef 0 4; PRef 0 5]. eexists. split; [|split; [reflexivity|left; vm_compute; reflexivity]].
    constructor; [|constructor; [|constructor]].
    + eapply Pa_one; [apply De_ref; [lia|vm_compute; reflexivity]|discriminate|apply De_val; discriminate].
    + eapply Pa_list; [apply De_ref; [lia|vm_compute; reflexivity]|]. constructor; [|constructor; [|constructor]]; (apply De_ref; [lia|vm_compute; reflexivity]).
  - vm_compute. reflexivity.
Qed.

(* ---- C87 ---- *)
Theorem C87_blank : forall {ZL : Zlib} name,
  (forall w h, paper_of name w h -> exists d, blank name = Ok d /\ editable d /\ one_page d w h) /\
  ((forall w h, ~ paper_of name w h) -> blank name = Exc EKeyError).
Proof. intros ZL. exact blank_spec. Qed.
Print Assumptions C87_blank.
Example C87_case : paper_of (B "A4") 595 842 /\ paper_of (B "US Letter") 612 792 /\ ~ (exists w h, paper_of (B "B5") w h).
Proof.
  split; [right; exists 210, 297; split; [cbv; tauto|split; reflexivity]|]. split; [left; exists 34, 44; split; [cbv; tauto|split; reflexivity]|].
  intros (w & h & P). apply paper_spec in P. vm_compute in P. discriminate.
Qed.

(* ---- C70 ---- *)
Theorem C70_metadata : forall {ZL : Zlib} d i rs, coherent d -> info_at d i -> Forall2 (info_text d i) info_keys rs ->
  exists d', metadata d = Ok (combine info_keys rs, d') /\ same_values d d'.
Proof. intros ZL. exact metadata_spec. Qed.
Print Assumptions C70_metadata.
Example C70_case : exists i, @info_at store_codec calls_doc i /\
  Forall2 (@info_text store_codec calls_doc i) info_keys [Some (B "Report"); Some (B "Ann"); None; None; None; None; None; None].
Proof.
  eexists. split.
  - eexists. split; [vm_compute; reflexivity|]. right. exists (PRef 0 10), 10. split; [vm_compute; reflexivity|]. exists 0. split; [reflexivity|]. split; [reflexivity|]. vm_compute. reflexivity.
  - unfold info_keys. constructor; [|constructor; [|constructor]].
    + eapply It_text; [vm_compute; reflexivity|apply De_val; discriminate|vm_compute; reflexivity|discriminate].
    + eapply It_text; [vm_compute; reflexivity|apply De_ref; [lia|vm_compute; reflexivity]|vm_compute; reflexivity|discriminate].
    + eapply It_empty; [vm_compute; reflexivity|apply De_val; discriminate|vm_compute; reflexivity].
    + repeat constructor.
Qed.

(* ---- C68 ---- *)
(* full statement: for every page tree.  It fails when a node holds more pages than there is room for *)
Theorem C68_first_pages_partial : forall {ZL : Zlib} m d t fuel base,
  (0 < m)%nat -> coherent d -> has_tree d t -> (depth t < fuel)%nat -> fits m t ->
  exists l base' d', pages fuel d base (Some (Z.of_nat m)) = Ok (l, base', d') /\
    Forall2 (view_of base) l (firstn m (leaves t)) /\ same_values d d'.
Proof.
  intros ZL m d t fuel base M C H D F. destruct (pages_first m t fuel d base M C H D F) as (l & b & d1 & E & R & L). exists l, b, d1. split; [exact E|]. split; [|apply R].
  eapply Facts_Pages.Forall2_impl; [|exact L]. intros x y V k r. rewrite attribute_spec, (V k). tauto.
Qed.
Print Assumptions C68_first_pages_partial.
Theorem C68_refuted : exists file d l base' d', @loads store_codec 10 file = Ok d /\ @pages store_codec 10 d [] (Some 2) = Ok (l, base', d') /\ length l = 4%nat.
Proof. exists paged_file, paged_doc. do 3 eexists. split; [vm_compute; reflexivity|]. split; vm_compute; reflexivity. Qed.
Print Assumptions C68_refuted.
Example C68_case : @has_tree store_codec paged_doc paged_tree /\ fits 3 paged_tree /\ ~ fits 2 paged_tree /\ map leaf_num (firstn 3 (leaves paged_tree)) = [3; 5; 6].
Proof.
  split; [apply (@plant_ok store_codec 9); vm_compute; reflexivity|]. split; [|split; [|reflexivity]].
  - assert (S : forall (l : list ptree) m, (forall j k, nth_error l j = Some k -> let c := length (flat_map leaves (firstn j l)) in c = O \/ (m <= c)%nat \/ (c + length (leaves k) <= m)%nat) ->
      forall pre k post, l = pre ++ k :: post -> let c := length (flat_map leaves pre) in c = O \/ (m <= c)%nat \/ (c + length (leaves k) <= m)%nat).
    { intros l m H pre k post ->. specialize (H (length pre) k). rewrite nth_error_app2, Nat.sub_diag in H by lia. specialize (H eq_refl). rewrite firstn_app, Nat.sub_diag, firstn_all in H. cbn [firstn] in H. rewrite app_nil_r in H. exact H. }
    unfold paged_tree. repeat first [apply Fi_leaf | apply Fi_node | apply Forall_cons | apply Forall_nil];
      (apply S; intros j k E; do 4 (destruct j as [|j]; [cbn in E; try discriminate E; injection E as <-; cbn; lia|]); destruct j; discriminate E).
  - intro F. inversion F as [|o nd kids FK FC]; subst. pose proof (FC [_] _ _ eq_refl) as X. cbn in X. lia.
Qed.
