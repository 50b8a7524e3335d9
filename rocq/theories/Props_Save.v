(* Properties of saving and reloading *)
From Coq Require Import String.
From Verif Require Import PyBase Model_Filters Model_Objects Model_Filestruct Model_Text Model_Docstruct Model_Api.
From Verif Require Import Spec_Filters Spec_Objects Spec_Filestruct Spec_Docstruct Spec_Api Spec_Save.
From Verif Require Import Facts_Doc Facts_Commit Facts_Write Facts_Save Facts_Rewind Cases_Docstruct.

(* ---- C31 ---- *)
(* offsets are written on ten digits; the fuel of loads bounds the number of revisions followed *)
Theorem C31_write_load : forall {ZL : Zlib} d out d1 fuel, authored d -> writefile d = Ok (out, d1) ->
  blen out < 10 ^ 10 -> (length (d_index d1) <= fuel)%nat ->
  exists d2, loads fuel out = Ok d2 /\ length (d_index d2) = length (d_index d1) /\
    (exists live, in_use d1 (-1) = Ok live /\ in_use d2 (-1) = Ok live /\ in_use d (-1) = Ok live /\
       forall g n, In (g, n) live -> exists v1 v2, value d n = Ok v1 /\ value d1 n = Ok v1 /\ value d2 n = Ok v2 /\ peq v1 v2) /\
    exists t1 t2, value d1 0 = Ok (PDict t1) /\ value d2 0 = Ok (PDict t2) /\ same_entries K_Prev t1 t2.
Proof. exact @save_load. Qed.
Print Assumptions C31_write_load.
(* blank documents are among them *)
Theorem C31_blank : forall {ZL : Zlib} size d, blank size = Ok d -> authored d.
Proof. exact @blank_authored. Qed.
Print Assumptions C31_blank.
(* an object added to blank("A4"), saved and reloaded, updated, committed, and another updated *)
Definition added_doc : doc := Eval vm_compute in
  match add_object blank_doc (PDict [(B "/A", PList [PInt 1; PRef 0 3])]) with Ok (d, _) => d | _ => no_doc end.
Definition added_file : bytes := Eval vm_compute in match @writefile store_codec added_doc with Ok (b, _) => b | _ => [] end.
Definition reloaded_doc : doc := Eval vm_compute in get_ok no_doc (@loads store_codec 5 added_file).
Definition edited_doc : doc := Eval vm_compute in get_ok no_doc
  (let* d1 := update_object reloaded_doc 4 (PBytes (B "(x)")) in let* d2 := @commit store_codec d1 in
   update_object d2 1 (PDict [(B "/B", PStr (B "/C"))])).
Lemma savable_value o : wfv o -> (forall g n, o <> PRef g n) -> is_objstm o = false -> @savable store_codec o.
Proof. intros; split; [constructor; apply wt_val; auto|auto]. Qed.
Lemma edited_authored : @authored store_codec edited_doc.
Proof.
  assert (A1 : @authored store_codec blank_doc) by (apply (@C31_blank store_codec (B "A4")); vm_compute; reflexivity).
  assert (A2 : @authored store_codec added_doc).
  { eapply (@Au_add store_codec blank_doc (PDict [(B "/A", PList [PInt 1; PRef 0 3])])); [exact A1| |vm_compute; reflexivity]. apply savable_value; [unfold wfv; wf_value|discriminate|reflexivity]. }
  assert (A3 : @authored store_codec reloaded_doc).
  { eapply (@Au_reload store_codec added_doc added_file _ 5); [exact A2|vm_compute; reflexivity|vm_compute; reflexivity|vm_compute; lia|vm_compute; reflexivity]. }
  eapply (@Au_update store_codec _ 1 (PDict [(B "/B", PStr (B "/C"))])); [|lia| |].
  { eapply (@Au_commit store_codec). { eapply (@Au_update store_codec reloaded_doc 4 (PBytes (B "(x)"))); [exact A3|lia| |vm_compute; reflexivity].
      split; [|reflexivity]. constructor. apply wt_lit. exists (B "x"). split; [reflexivity|]. apply lb_char; [discriminate|discriminate|discriminate|constructor]. }
    vm_compute. reflexivity. }
  { apply savable_value; [unfold wfv; wf_value|discriminate|reflexivity]. }
  vm_compute. reflexivity.
Qed.
Example C31_case : exists out d1, @authored store_codec edited_doc /\ @writefile store_codec edited_doc = Ok (out, d1) /\ blen out < 10 ^ 10 /\
  length (d_index d1) = 5%nat /\ in_use d1 (-1) = Ok [(0, 1); (0, 2); (0, 3); (0, 4)].
Proof.
  do 2 eexists. split; [exact edited_authored|]. repeat (split; [vm_compute; reflexivity|]). vm_compute. reflexivity.
Qed.

(* ---- C32 ---- *)
(* in memory the deletion holds, in the document that writefile returns *)
Theorem C32_deleted_partial : forall {ZL : Zlib} d0 d n d1 out d2, ready d0 -> simple d0 -> session d0 d -> 0 < n -> first_xsn d1 <> Ok (Some n) ->
  update_object d n PNone = Ok d1 -> writefile d1 = Ok (out, d2) -> value d2 n = Ok PNone.
Proof. exact @deleted_stays. Qed.
Print Assumptions C32_deleted_partial.
(* but it is lost when the file is loaded *)
Theorem C32_refuted : exists d d1 out d2 d3 v, add_object blank_doc (PInt 7) = Ok (d, (0, 4)) /\ @commit store_codec d = Ok d1 /\
  (let* d' := update_object d1 4 PNone in @writefile store_codec d') = Ok (out, d2) /\ @loads store_codec 5 out = Ok d3 /\
  @value store_codec d2 4 = Ok PNone /\ in_use d2 (-1) = Ok [(0, 1); (0, 2); (0, 3)] /\
  @value store_codec d3 4 = Ok v /\ v = PInt 7 /\ in_use d3 (-1) = Ok [(0, 1); (0, 2); (0, 3); (0, 4)].
Proof. do 6 eexists. repeat (split; [vm_compute; reflexivity|]). vm_compute. reflexivity. Qed.
Print Assumptions C32_refuted.
Example C32_case : exists d1 out d2, @ready store_codec loaded_doc /\ simple loaded_doc /\ first_xsn d1 <> Ok (Some 3) /\
  update_object loaded_doc 3 PNone = Ok d1 /\ @writefile store_codec d1 = Ok (out, d2) /\ @value store_codec loaded_doc 3 <> Ok PNone.
Proof.
  do 3 eexists. split; [apply readyb_ok; vm_compute; reflexivity|]. split; [apply simpleb_ok; vm_compute; reflexivity|].
  split; [|split; [vm_compute; reflexivity|split; [vm_compute; reflexivity|vm_compute; discriminate]]]. vm_compute. discriminate.
Qed.

(* ---- C71 ---- *)
Theorem C71_edit_saved_partial : forall {ZL : Zlib} d n o d1 out d2 fuel, authored d -> 0 < n -> savable o -> update_object d n o = Ok d1 -> writefile d1 = Ok (out, d2) ->
  blen out < 10 ^ 10 -> (length (d_index d2) <= fuel)%nat -> exists d3 v, loads fuel out = Ok d3 /\ value d3 n = Ok v /\ peq o v.
Proof. exact @saved_update. Qed.
Print Assumptions C71_edit_saved_partial.
(* a file whose last revision only frees an object: nothing is written for later edits *)
Theorem C71_refuted : exists d1 f d2 d3 d4 d5 d6, update_object blank_doc 3 PNone = Ok d1 /\ @writefile store_codec d1 = Ok (f, d2) /\
  @loads store_codec 5 f = Ok d3 /\ update_object d3 1 (PInt 7) = Ok d4 /\ @value store_codec d4 1 = Ok (PInt 7) /\
  @writefile store_codec d4 = Ok (f, d5) /\ @loads store_codec 5 f = Ok d6 /\ @value store_codec d6 1 <> Ok (PInt 7).
Proof. do 7 eexists. repeat (split; [vm_compute; reflexivity|]). vm_compute. discriminate. Qed.
Print Assumptions C71_refuted.
Example C71_case : exists d1 out d2, @authored store_codec blank_doc /\ @savable store_codec (PInt 7) /\
  update_object blank_doc 3 (PInt 7) = Ok d1 /\ @writefile store_codec d1 = Ok (out, d2) /\ blen out < 10 ^ 10 /\ length (d_index d2) = 3%nat.
Proof.
  do 3 eexists. split; [eapply (@C31_blank store_codec (B "A4")); vm_compute; reflexivity|].
  split; [split; [constructor; apply wt_val; [constructor|discriminate]|reflexivity]|]. repeat (split; [vm_compute; reflexivity|]). vm_compute. reflexivity.
Qed.

(* ---- C33 (with Props_Docstruct) ---- *)
(* what was edited and committed is read again after rewinding, whatever was edited since *)
Theorem C33_objects_partial : forall {ZL : Zlib} d d1 d2 d3, authored d -> commit d = Ok d1 -> edited d1 d2 -> rewind d2 = Ok d3 ->
  length (d_index d3) = (length (d_index d2) - 1)%nat /\ length (d_data d3) = length (d_index d3) /\
  exists live, in_use d (-1) = Ok live /\ in_use d3 (-1) = Ok live /\
    forall g n, In (g, n) live -> exists v w, value d n = Ok v /\ value d3 n = Ok w /\ peq v w.
Proof. exact @rewind_objects. Qed.
Print Assumptions C33_objects_partial.
(* the revision is open again: the next commit writes it *)
Theorem C33_open : forall {ZL : Zlib} d d1, rewind d = Ok d1 -> length (d_index d) <> 1%nat ->
  exists dx x, d_data d1 = dx ++ [x] /\ dt_cut x = None /\ length (d_data d1) = (length (d_data d) - 1)%nat.
Proof. exact @rewind_open. Qed.
Print Assumptions C33_open.
(* the trailer of a committed revision is sought at the last "trailer" of its section: if the
   dictionary holds this word, the revision cannot be rewound *)
Theorem C33_refuted : exists d d1 d2 e, @loads store_codec 5 word_file = Ok d /\ update_object d 3 (PInt 9) = Ok d1 /\
  @commit store_codec d1 = Ok d2 /\ @rewind store_codec d2 = Exc e.
Proof. do 4 eexists. repeat (split; [vm_compute; reflexivity|]). vm_compute. reflexivity. Qed.
Print Assumptions C33_refuted.
Example C33_objects_case : exists d1 d2 d3 d4, @authored store_codec blank_doc /\ update_object blank_doc 3 (PInt 7) = Ok d1 /\ @commit store_codec d1 = Ok d2 /\
  @edited store_codec d2 d3 /\ @rewind store_codec d3 = Ok d4 /\ @value store_codec d3 3 = Ok (PInt 8) /\ @value store_codec d4 3 = Ok (PInt 7) .
Proof.
  do 4 eexists. split; [eapply (@blank_authored store_codec (B "A4")); vm_compute; reflexivity|].
  split; [vm_compute; reflexivity|]. split; [vm_compute; reflexivity|].
  split; [eapply (Ei_update _ _ 3 (PInt 8)); [constructor|lia|split; [constructor; apply wt_val; [constructor|discriminate]|reflexivity]|vm_compute; reflexivity]|].
  split; [vm_compute; reflexivity|]. split; [vm_compute; reflexivity|]. vm_compute. reflexivity.
Qed.
