(* Properties of files made by other programs that are edited and saved by appending *)
From Coq Require Import String.
From Verif Require Import PyBase Model_Filters Model_Objects Model_Filestruct Model_Text Model_Docstruct Model_Api.
From Verif Require Import Spec_Filters Spec_Objects Spec_Filestruct Spec_Docstruct Spec_Save Spec_Packed Spec_Foreign.
From Verif Require Import Facts_Base Facts_Xstm Facts_Doc Facts_Foreign Facts_PackCheck Facts_Stays.
From Verif Require Import Cases_Docstruct Cases_Foreign.
From Coq Require Import ZifyBool ZifyNat.

(* ---- C93 ---- *)
(* full statement: after any number of sessions (open, edit, save) on any file, the file starts
   with the bytes it had at first and is read again with the values the document had when it was
   saved.  Missing below: deletions, updates of objects that are in object streams, objects of
   generations other than 0 and, when the first section is an xref stream, files in which its
   number is not listed (reusable): see C93_member_refuted and C93_unlisted_refuted *)
Theorem C93_updates_partial : forall {ZL : Zlib} f F cs cs' x t n G d0 d1 out d2,
  lasting f F cs cs' x t -> reusable F cs t -> oldest_xsn cs = None \/ zlib_ok -> (forall d, loads f F = Ok d -> coherent d) ->
  maintained f F n G d0 -> revised d0 d1 -> writefile d1 = Ok (out, d2) -> blen out < 10 ^ 10 -> plainly_saved d1 d2 out ->
  (exists R, G = F ++ R) /\ (exists R, out = G ++ R) /\
  exists d3, loads (S n) out = Ok d3 /\ maintained f F (S n) out d3 /\ coherent d3 /\
    (forall k, 0 < k -> oldest_xsn cs <> Some k -> match value d1 k with Ok v => exists w, value d3 k = Ok w /\ peq v w | r => value d3 k = r end) /\
    exists ta tb m, value d1 0 = Ok (PDict ta) /\ value d3 0 = Ok (PDict tb) /\ same_trailer ta tb /\
      (oldest_xsn cs = None -> same_entries K_Prev (dset K_Size (PInt m) ta) tb).
Proof.
  intros ZL f F cs cs' x t n G d0 d1 out d2 LA RU ZO CO M RV W BL PS.
  destruct (maintained_lasting f F cs cs' x t n G d0 LA RU ZO CO M) as (L & C & EF & cs2 & cs2' & x2 & t2 & LA2 & RU2 & OX2). rewrite <- OX2 in *.
  destruct (foreign_cycle n G cs2 cs2' x2 t2 d0 d1 out d2 LA2 RU2 ZO L C RV W BL PS) as (d3 & L3 & C3 & V3 & T3 & E3 & _).
  split; auto. split; auto. exists d3. split; auto. split; [eapply Ma_save; eauto|]. auto.
Qed.
Print Assumptions C93_updates_partial.
Example C93_case : exists cs cs' x t, @lasting store_codec 3 foreign_file cs cs' x t /\ oldest_xsn cs = None /\ reusable foreign_file cs t /\
  (forall d, @loads store_codec 3 foreign_file = Ok d -> @coherent store_codec d) /\
  @maintained store_codec 3 foreign_file 3 foreign_file foreign_doc /\ @revised store_codec foreign_doc foreign_edited /\
  @writefile store_codec foreign_edited = Ok (foreign_out, foreign_saved) /\ blen foreign_out < 10 ^ 10 /\ plainly_saved foreign_edited foreign_saved foreign_out /\
  @loads store_codec 4 foreign_out = Ok foreign_again /\
  @value store_codec foreign_again 5 = Ok (PBytes (B "(hello)")) /\ 
  @value store_codec foreign_again 3 = Ok (PDict [(B "/Contents", PList [PRef 0 4; PRef 0 6]); (K_Parent, PRef 0 2); (K_Type, PStr K_Page)]) /\
  @value store_codec foreign_again 6 = Ok (PStream [] (Some (B "Q")) (Some (B "Q"))).
Proof.
  destruct (@durable_ok store_codec 3 foreign_file ltac:(vm_compute; reflexivity)) as (cs & cs' & x & t & CH & LA).
  assert (L : @loads store_codec 3 foreign_file = Ok foreign_doc) by (vm_compute; reflexivity).
  exists cs, cs', x, t. split; auto. assert (OX : oldest_xsn cs = None) by (vm_compute in CH; injection CH as <-; reflexivity). split; [exact OX|]. split; [intros k Q; congruence|].
  split; [intros d E; rewrite L in E; injection E as <-; apply direct_coherent; vm_compute; reflexivity|].
  split; [constructor; auto|]. split.
  - eapply Re_add with (d := foreign_updated) (o := PStream [] (Some (B "Q")) (Some (B "Q"))); [|apply savableb_ok; vm_compute; reflexivity|vm_compute; reflexivity].
    apply (@updatesb_ok store_codec foreign_doc foreign_doc 3 foreign_page); [constructor|vm_compute; reflexivity|vm_compute; reflexivity].
  - split; [vm_compute; reflexivity|]. split; [vm_compute; reflexivity|]. split; [left; vm_compute; reflexivity|]. split; [vm_compute; reflexivity|]. split; [vm_compute; reflexivity|]. split; vm_compute; reflexivity.
Qed.
(* the catalog is updated in a first session and a string added in a second one; the pages are
   in an object stream of the file *)
Example C93_stream_case : exists cs cs' x t, @lasting store_codec 3 stream_file cs cs' x t /\ oldest_xsn cs = Some 6 /\ reusable stream_file cs t /\ @zlib_ok store_codec /\
  (forall d, @loads store_codec 3 stream_file = Ok d -> @coherent store_codec d) /\
  @maintained store_codec 3 stream_file 4 stream_out stream_again /\ @revised store_codec stream_again stream_edited2 /\
  @writefile store_codec stream_edited2 = Ok (stream_out2, stream_saved2) /\ blen stream_out2 < 10 ^ 10 /\ plainly_saved stream_edited2 stream_saved2 stream_out2 /\
  @loads store_codec 5 stream_out2 = Ok stream_again2 /\
  @value store_codec stream_again2 1 = Ok (PDict [(B "/Lang", PBytes (B "(en)")); (B "/Pages", PRef 0 2); (K_Type, PStr (B "/Catalog"))]) /\
  @value store_codec stream_again2 2 = Ok (PDict [(B "/Count", PInt 1); (B "/Kids", PList [PRef 0 3]); (K_Type, PStr (B "/Pages"))]) /\
  @value store_codec stream_again2 7 = Ok (PBytes (B "(hello)")).
Proof.
  destruct (@durable_ok store_codec 3 stream_file ltac:(vm_compute; reflexivity)) as (cs & cs' & x & t & CH & LA).
  assert (L : @loads store_codec 3 stream_file = Ok stream_doc) by (vm_compute; reflexivity).
  exists cs, cs', x, t. split; auto. split; [vm_compute in CH; injection CH as <-; reflexivity|].
  split. { pose proof (rb_start _ _ _ _ _ (la_readable _ _ _ _ _ _ LA)) as (_ & h & es & older & p & E1 & _ & E2 & E3). apply reusableb_ok. vm_compute in CH. injection CH as <-. injection E1 as <- <- _. vm_compute in E2. injection E2 as <-. vm_compute in E3. injection E3 as <-. vm_compute. reflexivity. }
  split; [intros b H; reflexivity|]. split; [intros d E; rewrite L in E; injection E as <-; apply coherentb_ok; vm_compute; reflexivity|]. split.
  { apply Ma_save with (n := 3%nat) (G := stream_file) (d := stream_doc) (d1 := stream_edited) (d2 := stream_saved); [constructor; auto| |vm_compute; reflexivity|vm_compute; reflexivity|right; apply xref_cleanb_ok; vm_compute; reflexivity|vm_compute; reflexivity].
    apply (@updatesb_ok store_codec stream_doc stream_doc 1 stream_catalog); [constructor|vm_compute; reflexivity|vm_compute; reflexivity]. }
  split; [eapply Re_add with (d := stream_again) (o := PBytes (B "(hello)")); [constructor|apply savableb_ok; vm_compute; reflexivity|vm_compute; reflexivity]|].
  split; [vm_compute; reflexivity|]. split; [vm_compute; reflexivity|]. split; [right; apply xref_cleanb_ok; vm_compute; reflexivity|]. split; [vm_compute; reflexivity|]. split; [vm_compute; reflexivity|]. split; vm_compute; reflexivity.
Qed.

(* when the xref stream of the first section is not listed, the next object added gets its
   number, and the xref stream of the update takes its place in the file *)
Theorem C93_unlisted_refuted : exists F d d1 r out d2 d3 o, @loads store_codec 3 F = Ok d /\ @coherent store_codec d /\ add_object d o = Ok (d1, r) /\ @savable store_codec o /\
  @writefile store_codec d1 = Ok (out, d2) /\ @loads store_codec 4 out = Ok d3 /\ @value store_codec d1 (snd r) = Ok o /\
  forall w, @value store_codec d3 (snd r) = Ok w -> ~ peq o w.
Proof.
  exists unlisted_file, unlisted_doc, unlisted_edited, (0, 6), unlisted_out, unlisted_saved, unlisted_again, (PBytes (B "(hello)")).
  split; [vm_compute; reflexivity|]. split; [apply coherentb_ok; vm_compute; reflexivity|]. split; [vm_compute; reflexivity|]. split; [apply savableb_ok; vm_compute; reflexivity|].
  split; [vm_compute; reflexivity|]. split; [vm_compute; reflexivity|]. split; [vm_compute; reflexivity|].
  intros w E. vm_compute in E. injection E as <-. intro P. inversion P.
Qed.
Print Assumptions C93_unlisted_refuted.

(* an object of an object stream is updated, another object of the same stream is read, and the
   update is gone: the value is the old one, in the document and in the file that is saved *)
Theorem C93_member_refuted : exists F d d1 v d2 out d3 d4 n m o, @loads store_codec 3 F = Ok d /\ @coherent store_codec d /\ @savable store_codec o /\
  update_object d n o = Ok d1 /\ @value store_codec d1 n = Ok o /\ @get_object store_codec d1 (PRef 0 m) = Ok (v, d2) /\ @value store_codec d m = Ok v /\
  @value store_codec d2 n = @value store_codec d n /\ @writefile store_codec d2 = Ok (out, d3) /\ @loads store_codec 4 out = Ok d4 /\
  forall w, @value store_codec d4 n = Ok w -> ~ peq o w.
Proof.
  exists stream_file, stream_doc, member_edited, (PDict [(B "/Count", PInt 1); (B "/Kids", PList [PRef 0 3]); (K_Type, PStr (B "/Pages"))]), member_read, member_out, member_saved, member_again, 3, 2, member_page.
  split; [vm_compute; reflexivity|]. split; [apply coherentb_ok; vm_compute; reflexivity|]. split; [apply savableb_ok; vm_compute; reflexivity|].
  do 7 (split; [vm_compute; reflexivity|]).
  intros w E. vm_compute in E. injection E as <-. intro P. inversion P; subst. match goal with K : forall k, dget k _ = None <-> dget k _ = None |- _ => specialize (K (B "/Rotate")); vm_compute in K; destruct K as [_ K]; discriminate (K eq_refl) end.
Qed.
Print Assumptions C93_member_refuted.
