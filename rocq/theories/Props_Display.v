(* The HTML view of a file: C54, C79, C80 *)
From Coq Require Import String.
From Verif Require Import PyBase Model_Filters Model_Objects Model_Filestruct Model_Text Model_Docstruct Model_Api Model_Display.
From Verif Require Import Spec_Filters Spec_Objects Spec_Filestruct Spec_Display Facts_Doc Facts_Display Facts_Cross Cases_Docstruct.
From Verif Require Model_Graphics Spec_Markdown Facts_Shown.

(* ---- C54 ---- *)
(* every '<' of the page is one of the template, when comments, xref keywords, /Type strings, the
   version, the page count and the name of the file have none *)
Theorem C54_page_partial {ZL : Zlib} : forall fuel p filename page,
  browse fuel p filename = Ok page ->
  no_lt filename -> (forall l, file_sections p = Ok l -> Forall plain_article l) ->
  (forall d v d1 c d2 t, doc_constructor fuel p = Ok d -> version d = Ok (v, d1) -> number_pages d1 = Ok (c, d2) -> count_text c = Ok t -> no_lt v /\ no_lt t) ->
  from_template page.
Proof. exact browse_template. Qed.
Print Assumptions C54_page_partial.
(* the text of an object: whatever its strings and its streams are *)
Theorem C54_object : forall row depth display_stream o t, keys_ok o -> follow_obj row depth display_stream o = Ok t -> from_template t.
Proof. intros row depth ds o t K E. apply ft_from. exact (follow_ft o row depth ds t K E). Qed.
Print Assumptions C54_object.
Definition page_of (file filename : bytes) : bytes := get_ok [] (@browse store_codec 10 (PvSingle file) filename).
(* a comment; a /Type given as a string; the name of the file *)
Definition comment_file : bytes := blank_file ++ B "%<b>" ++ [10].
Definition type_file : bytes := Eval vm_compute in
  get_ok [] (let* (d, _) := add_object blank_doc (PDict [(B "/Type", PBytes (B "(<b>)"))]) in let* (b, _) := @writefile store_codec d in Ok b).
Theorem C54_refuted : exists file filename page, @browse store_codec 10 (PvSingle file) filename = Ok page /\ no_lt filename /\ ~ from_template page.
Proof.
  exists comment_file, (B "a.pdf"), (page_of comment_file (B "a.pdf")). split; [vm_compute; reflexivity|]. split; [vm_compute; intuition discriminate|]. apply (not_template _ (Z.to_nat 6838)); vm_compute; reflexivity.
Qed.
Print Assumptions C54_refuted.
Theorem C54_type_refuted : exists file filename page, @browse store_codec 10 (PvSingle file) filename = Ok page /\ no_lt filename /\ ~ from_template page /\
  (forall l pos t, @file_sections store_codec (PvSingle file) = Ok l -> In (ArComment pos t) l -> no_lt t).
Proof.
  exists type_file, (B "a.pdf"), (page_of type_file (B "a.pdf")). split; [vm_compute; reflexivity|]. split; [vm_compute; intuition discriminate|]. split; [apply (not_template _ (Z.to_nat 8932)); vm_compute; reflexivity|].
  intros l pos t E. vm_compute in E. injection E as <-. cbn [In]. intros H. repeat (destruct H as [H|H]; [try discriminate H; injection H as <- <-; unfold no_lt; cbn [In]; intuition discriminate|]). destruct H.
Qed.
Print Assumptions C54_type_refuted.
Theorem C54_name_refuted : exists filename page, @browse store_codec 10 (PvSingle blank_file) filename = Ok page /\ ~ from_template page.
Proof. exists (B "<b>.pdf"), (page_of blank_file (B "<b>.pdf")). split; [vm_compute; reflexivity|]. apply (not_template _ (Z.to_nat 6745)); vm_compute; reflexivity. Qed.
Print Assumptions C54_name_refuted.
(* a long array of dictionaries is cut inside a tag *)
Theorem C54_cut : exists o t, keys_ok o /\ follow_obj [] 0 true o = Ok t /\ exists a, t = a ++ B "<span class=""warn" ++ cut_mark ++ B "]".
Proof.
  exists (PList [PDict [(B "/JS", PInt 1)]]). eexists. split; [apply ko_list; constructor; [|constructor]; apply ko_dict; constructor; [|constructor]; split; [vm_compute; intuition discriminate|apply ko_other; exact I]|].
  split; [vm_compute; reflexivity|]. exists (firstn 13 (get_ok [] (follow_obj [] 0 true (PList [PDict [(B "/JS", PInt 1)]])))). vm_compute. reflexivity.
Qed.
Print Assumptions C54_cut.
(* the text of a stream is shown as it is when it has no control character below 20 but line ends, and is not shown otherwise *)
Theorem C54_stream : forall c,
  (Forall (fun x => 20 <= x \/ x = 10 \/ x = 13) c /\ exists p, Model_Graphics.printable_stream_content c = Some p /\ (~ In 38 c -> Spec_Markdown.shown_text p = c)) \/
  (~ Forall (fun x => 20 <= x \/ x = 10 \/ x = 13) c /\ Model_Graphics.printable_stream_content c = None).
Proof. exact Facts_Shown.printable_shown. Qed.
Print Assumptions C54_stream.
Example C54_stream_case : Model_Graphics.printable_stream_content (B "1 < 2" ++ [13; 10; 20]) = Some (B "1 &lt; 2" ++ [13; 10; 20]) /\ Model_Graphics.printable_stream_content (B "a" ++ [9]) = None.
Proof. split; reflexivity. Qed.
Example C54_case : exists page, @browse store_codec 10 (PvSingle blank_file) (B "a.pdf") = Ok page /\ from_template page /\ 8000 < blen page.
Proof.
  exists (page_of blank_file (B "a.pdf")). assert (E : @browse store_codec 10 (PvSingle blank_file) (B "a.pdf") = Ok (page_of blank_file (B "a.pdf"))) by (vm_compute; reflexivity). split; [exact E|]. split; [|vm_compute; reflexivity].
  apply (C54_page_partial (ZL := store_codec) _ _ _ _ E).
  - vm_compute; intuition discriminate.
  - intros l H. vm_compute in H. injection H as <-. repeat constructor; unfold plain_article, no_lt; cbn; intuition discriminate.
  - intros d v d1 c d2 t H1 H2 H3 H4. vm_compute in H1. injection H1 as <-. vm_compute in H2. injection H2 as <- <-. vm_compute in H3. injection H3 as <- <-. vm_compute in H4. injection H4 as <-. split; unfold no_lt; cbn; intuition discriminate.
Qed.

(* ---- C79 ---- *)
(* the entries of the cross map are the sections; the users listed for a position are exactly the
   sections of the last revision that refer to the object standing there *)
Theorem C79_used_in : forall l index ret, cross_map_index l index = Ok ret -> one_number index ->
  (forall k, In k (map fst ret) <-> exists a, shown_at l k a) /\
  (forall k c n q, cget (Some k) ret = Some c -> (In (n, q) (c_used c) <-> uses l index n q k)).
Proof. exact cross_used. Qed.
Print Assumptions C79_used_in.
Definition sections_of (f : bytes) : list article := get_ok [] (@file_sections store_codec (PvSingle f)).
Definition index_of (f : bytes) : list (list slot) := get_ok [] (@file_index store_codec 10 (PvSingle f)).
Example C79_case : exists ret, cross_map_index (sections_of updated_file) (index_of updated_file) = Ok ret /\ one_number (index_of updated_file) /\ length (index_of updated_file) = 2%nat /\
  uses (sections_of updated_file) (index_of updated_file) 2 (Some (AFloat 9 2)) (AInt 427) /\ ~ uses (sections_of updated_file) (index_of updated_file) 3 (Some (AFloat 9 3)) (AFloat 9 2).
Proof.
  assert (E : exists ret c1 c2, cross_map_index (sections_of updated_file) (index_of updated_file) = Ok ret /\ cget (Some (AInt 427)) ret = Some c1 /\ c_used c1 = [(2, Some (AFloat 9 2))] /\
    cget (Some (AFloat 9 2)) ret = Some c2 /\ c_used c2 = [(1, Some (AFloat 9 1))]) by (do 3 eexists; split; [vm_compute; reflexivity|]; repeat split; vm_compute; reflexivity).
  destruct E as (ret & c1 & c2 & E & G1 & U1 & G2 & U2). assert (ONE : one_number (index_of updated_file)) by (apply one_numberb_ok; vm_compute; reflexivity). exists ret. split; [exact E|]. split; [exact ONE|]. split; [vm_compute; reflexivity|].
  destruct (C79_used_in _ _ _ E ONE) as (_ & H). split.
  - apply (H _ _ _ _ G1). rewrite U1. left. reflexivity.
  - intro X. apply (H _ _ _ _ G2) in X. rewrite U2 in X. destruct X as [X|[]]. discriminate X.
Qed.

(* ---- C80 ---- *)
Theorem C80_cross_partial : forall l index, plain_index index -> one_number index -> Forall (fun a => section_pos a <> None -> indexed index a) l ->
  (forall a q, shown_at l q a -> latest index a -> (forall g n, section_obj a <> PRef g n) /\
     forall g m, ref_in (g, m) (section_obj a) -> exists k b, now_at index m k /\ shown_at l (Some k) b) ->
  exists ret, cross_map_index l index = Ok ret.
Proof. exact cross_total. Qed.
Print Assumptions C80_cross_partial.
(* files that load and whose view raises: a reference to a number that no revision describes, an
   object that is in the file and not in the index *)
Definition dangling_file : bytes := Eval vm_compute in
  get_ok [] (let* (d, _) := add_object blank_doc (PList [PRef 0 9]) in let* (b, _) := @writefile store_codec d in Ok b).
Definition stray_file : bytes := Eval vm_compute in blank_file ++ B "9 0 obj" ++ [10] ++ B "7" ++ [10] ++ B "endobj" ++ [10].
Theorem C80_refuted : 
  (exists d, @loads store_codec 10 dangling_file = Ok d) /\ @browse store_codec 10 (PvSingle dangling_file) (B "a.pdf") = Exc EIndexError /\
  (exists d, @loads store_codec 10 stray_file = Ok d) /\ @browse store_codec 10 (PvSingle stray_file) (B "a.pdf") = Exc ETypeError.
Proof. repeat split; try (eexists; vm_compute; reflexivity); vm_compute; reflexivity. Qed.
Print Assumptions C80_refuted.
Example C80_case : let l := sections_of updated_file in let index := index_of updated_file in
  plain_index index /\ one_number index /\ Forall (fun a => section_pos a <> None -> indexed index a) l /\
  (forall a q, shown_at l q a -> latest index a -> (forall g n, section_obj a <> PRef g n) /\
     forall g m, ref_in (g, m) (section_obj a) -> exists k b, now_at index m k /\ shown_at l (Some k) b).
Proof.
  cbv zeta. split; [|split; [apply one_numberb_ok; vm_compute; reflexivity|split; [|apply good_objb_ok; vm_compute; reflexivity]]].
  - remember (index_of updated_file) as index eqn:E. vm_compute in E. subst index. split; [discriminate|]. split; [|split].
    + intros row n s I _ (_ & C). destruct I as [<-|[<-|[]]]; destruct (Z.to_nat n) as [|[|[|[|[|[|[|k]]]]]]]; cbn in C; try (injection C as <-; right; exact Logic.I); destruct k; discriminate.
    + do 3 eexists. split; [reflexivity|]. split; [split; [lia|reflexivity]|left; exact Logic.I].
    + intros row [<-|[]]. eexists. split; [split; [lia|reflexivity]|right; exact Logic.I].
  - assert (L : exists last, pyget (index_of updated_file) (-1) = Ok last /\ length last = 7%nat) by (eexists; split; vm_compute; reflexivity). destruct L as (last & L & LL).
    remember (sections_of updated_file) as l eqn:E. vm_compute in E. subst l.
    assert (GO := fun pos emb num o n row => indexed_obj (index_of updated_file) last pos emb num o n row L). rewrite LL in GO.
    repeat (constructor; [intro N; try (exfalso; apply N; reflexivity); first [apply (GO _ _ _ _ 5 0%nat); [lia|vm_compute; reflexivity]|apply (GO _ _ _ _ 1 0%nat); [lia|vm_compute; reflexivity]|apply (GO _ _ _ _ 2 0%nat); [lia|vm_compute; reflexivity]
      |apply (GO _ _ _ _ 3 0%nat); [lia|vm_compute; reflexivity]|apply (GO _ _ _ _ 4 0%nat); [lia|vm_compute; reflexivity]|apply (GO _ _ _ _ 3 1%nat); [lia|vm_compute; reflexivity]|apply (GO _ _ _ _ 4 1%nat); [lia|vm_compute; reflexivity]]|]). constructor.
Qed.
