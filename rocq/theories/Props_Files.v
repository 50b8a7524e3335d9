(* Properties of files with xref tables as other programs write them *)
From Coq Require Import String.
From Verif Require Import PyBase Model_Filters Model_Objects Model_Filestruct Model_Text Model_Docstruct Model_Api.
From Verif Require Import Spec_Filters Spec_Objects Spec_Filestruct Spec_Docstruct Spec_Api Spec_Save Spec_Packed Spec_Foreign Spec_Syntax Spec_Files.
From Verif Require Import Facts_Base Facts_Xstm Facts_Doc Facts_Foreign Facts_PackCheck Facts_Stays Facts_Files Cases_Docstruct.
From Coq Require Import ZifyBool ZifyNat.

(* ---- C102 ---- *)
(* full statement: a file whose xref tables follow the standard, however they are laid out, is
   opened; each object has the value found where the newest table that has an entry for it
   says, or no value when this entry is free; the entries of the trailer are the ones of the
   newest table.  Missing below: entries freed by a newer table (C102_free_refuted), other
   layouts of the words xref and trailer (C102_layout_refuted), hybrid-reference files and
   objects in object streams *)
Theorem C102_files_partial : forall {ZL : Zlib} F s r f, tabled_file F (s :: r) -> (length r <= f)%nat -> exists d, loads f F = Ok d /\ coherent d /\
  (forall n x o, 0 < n -> newest (s :: r) n x -> object_in F n x o -> exists v, value d n = Ok v /\ peq o v) /\
  (forall n v, 0 < n -> (forall t x, In t (s :: r) -> lists (ft_list t) n x -> te_use x = false) -> value d n = Ok v -> v = PNone) /\
  exists t, value d 0 = Ok (PDict t) /\ forall k, k <> B "/Size" -> k <> B "/Prev" ->
    match dget k (ft_trailer s) with None => dget k t = None | Some v => exists w, dget k t = Some w /\ peq v w end.
Proof. intros ZL F s r f. exact (file_opened F s r f). Qed.
Print Assumptions C102_files_partial.

(* such a file is updated as C93 says: any number of sessions only append to it *)
Theorem C102_updates_partial : forall {ZL : Zlib} F s r f n G d0 d1 out d2, tabled_file F (s :: r) -> (length r <= f)%nat ->
  maintained f F n G d0 -> revised d0 d1 -> writefile d1 = Ok (out, d2) -> blen out < 10 ^ 10 -> plainly_saved d1 d2 out ->
  (exists R, G = F ++ R) /\ (exists R, out = G ++ R) /\
  exists d3, loads (S n) out = Ok d3 /\ maintained f F (S n) out d3 /\ coherent d3 /\
    (forall k, 0 < k -> match value d1 k with Ok v => exists w, value d3 k = Ok w /\ peq v w | r => value d3 k = r end) /\
    exists ta tb m, value d1 0 = Ok (PDict ta) /\ value d3 0 = Ok (PDict tb) /\ same_entries K_Prev (dset K_Size (PInt m) ta) tb.
Proof. intros ZL F s r f. exact (file_updated F s r f). Qed.
Print Assumptions C102_updates_partial.

(* a newer table frees object 2: it still has its old value *)
Definition freed_file : bytes := Eval vm_compute in B "%PDF-1.4
% ....................................................................
1 0 obj<</Pages[]>>endobj
2 0 obj(old)endobj
xref
1 2
0000000080 00000 n 
0000000106 00000 n 
trailer
<</Root 1 0 R/Size 3>>
startxref
125
%%EOF
3 0 obj[2]endobj
xref
2 2
0000000000 00001 f 
0000000225 00000 n 
trailer
<</Root 1 0 R/Size 4/Prev 125>>
startxref
242
%%EOF
".
Theorem C102_free_refuted : exists F d, sub F 242 270 = B "xref" ++ [10] ++ B "2 2" ++ [10] ++ B "0000000000 00001 f " /\
  @loads store_codec 1 F = Ok d /\ @value store_codec d 3 = Ok (PList [PInt 2]) /\ @value store_codec d 2 = Ok (PBytes (B "(old)")).
Proof.
  exists freed_file. eexists. split; [vm_compute; reflexivity|]. split; [vm_compute; reflexivity|]. split; vm_compute; reflexivity.
Qed.
Print Assumptions C102_free_refuted.

(* a space after the word xref: the table is taken for an empty one *)
Definition spaced_file (s : bytes) : bytes := Eval vm_compute in B "%PDF-1.4
% ....................................................................
1 0 obj<</Pages[]>>endobj
xref" ++ s ++ B "
1 1
0000000080 00000 n 
trailer
<</Root 1 0 R/Size 2>>
startxref
106
%%EOF
".
Theorem C102_layout_refuted : (exists d, @loads store_codec 0 (spaced_file []) = Ok d /\ @value store_codec d 1 = Ok (PDict [(B "/Pages", PList [])])) /\
  exists d, @loads store_codec 0 (spaced_file [32]) = Ok d /\ @value store_codec d 1 = Exc EIndexError.
Proof. split; eexists; (split; [vm_compute; reflexivity|]); vm_compute; reflexivity. Qed.
Print Assumptions C102_layout_refuted.

(* ---- a file of two revisions ---- *)
Definition two_file : bytes := Eval vm_compute in B "%PDF-1.4" ++ [10] ++ B "1 0 obj<</Pages[]>>endobj" ++ [10] ++ B "2 0 obj(old)endobj" ++ [10] ++
  B "xref" ++ [13; 10] ++ B "0 1" ++ [13; 10] ++ B "0 65535 f" ++ [13; 10] ++ B "1 2" ++ [13; 10] ++ B "9 0 n" ++ [13; 10] ++ B "0000000035 00000 n " ++ [13; 10] ++
  B "trailer" ++ [13; 10] ++ B "<</Root 1 0 R>>" ++ [10] ++ B "startxref" ++ [13; 10] ++ B "54" ++ [13; 10] ++ B "%%EOF" ++ [13; 10] ++
  B "2 0 obj[2]endobj" ++ [10] ++ B "xref" ++ [10] ++ B "2  1 " ++ [10] ++ B "0000000156 00000 n " ++ [10] ++ B "trailer " ++ [10] ++ B "<</Root 1 0 R/Prev 54>>" ++ B "startxref 173" ++ [10] ++ B "%%EOF".
Definition old_table : ftable := mk_ftable 54 [(0, [mk_tabent 0 65535 false]); (1, [mk_tabent 9 0 true; mk_tabent 35 0 true])] [(B "/Root", PRef 0 1)]
  (B "xref" ++ [13; 10] ++ B "0 1" ++ [13; 10] ++ B "0 65535 f" ++ [13; 10] ++ B "1 2" ++ [13; 10] ++ B "9 0 n" ++ [13; 10] ++ B "0000000035 00000 n " ++ [13; 10] ++ B "trailer" ++ [13; 10] ++ B "<</Root 1 0 R>>").
Definition new_table : ftable := mk_ftable 173 [(2, [mk_tabent 156 0 true])] [(B "/Root", PRef 0 1); (B "/Prev", PInt 54)]
  (B "xref" ++ [10] ++ B "2  1 " ++ [10] ++ B "0000000156 00000 n " ++ [10] ++ B "trailer " ++ [10] ++ B "<</Root 1 0 R/Prev 54>>").

Lemma nametok c l : Forall regular (c :: l) -> name_tok (47 :: c :: l).
Proof. intro F. exists (c :: l). split; [reflexivity|exact F]. Qed.
Ltac regs := repeat (constructor; [unfold regular, white, delim; lia|]); constructor.
Lemma root_name : name_tok (B "/Root").
Proof. apply (nametok 82 (B "oot")). change (B "oot") with [111; 111; 116]. regs. Qed.
Lemma prev_name : name_tok (B "/Prev").
Proof. apply (nametok 80 (B "rev")). change (B "rev") with [114; 101; 118]. regs. Qed.
Lemma pages_name : name_tok (B "/Pages").
Proof. apply (nametok 80 (B "ages")). change (B "ages") with [97; 103; 101; 115]. regs. Qed.
Lemma digs s : forallb (fun c => (48 <=? c) && (c <=? 57)) s = true -> s <> [] -> digits s.
Proof. intros H N. split; auto. apply Forall_forall. intros c I. rewrite forallb_forall in H. specialize (H c I). unfold decdigit. lia. Qed.
Lemma int_read54 z s : forallb (fun c => (48 <=? c) && (c <=? 57)) s = true -> s <> [] -> decimal s = z -> spelled (PInt z) s.
Proof. intros H N D. destruct (digs s H N) as [_ F]. apply sp_int. exists 1, [], s. split; [reflexivity|]. split; [constructor|]. split; auto. split; auto. lia. Qed.
Lemma root_ref : spelled (PRef 0 1) (B "1 0 R").
Proof.
  assert (G : gap [32]) by (apply gap_white; [unfold white; lia|constructor]).
  apply (sp_ref 1 [32] [32] (B "1") (B "0")); auto; try discriminate; [change (B "1") with [49]|change (B "0") with [48]]; repeat constructor; unfold decdigit; lia.
Qed.
Lemma two_trailers : spelled (PDict (ft_trailer old_table)) (B "<</Root 1 0 R>>") /\ spelled (PDict (ft_trailer new_table)) (B "<</Root 1 0 R/Prev 54>>").
Proof.
  assert (G0 : gap []) by constructor. assert (G : gap [32]) by (apply gap_white; [unfold white; lia|constructor]). pose proof root_name. pose proof prev_name. pose proof root_ref. split.
  - change (B "<</Root 1 0 R>>") with (B "<<" ++ ([] ++ B "/Root" ++ ([32] ++ B "1 0 R" ++ [])) ++ B ">>"). apply (sp_dict [(B "/Root", _)]).
    + repeat constructor; cbn; tauto.
    + repeat constructor; auto.
    + apply (el_cons true []); auto; [apply sp_name; auto| | |].
      * apply (el_cons true [32]); auto; [constructor; auto|intros _ (b & Q & _); discriminate].
      * right. right. exists 32. eexists. split; [reflexivity|]. left. unfold white. lia.
      * intros _ (b & Q & _). discriminate.
  - change (B "<</Root 1 0 R/Prev 54>>") with (B "<<" ++ ([] ++ B "/Root" ++ ([32] ++ B "1 0 R" ++ ([] ++ B "/Prev" ++ ([32] ++ B "54" ++ [])))) ++ B ">>"). apply (sp_dict [(B "/Root", _); (B "/Prev", _)]).
    + repeat constructor; cbn; intuition discriminate.
    + repeat constructor; auto.
    + apply (el_cons true []); auto; [apply sp_name; auto| | |].
      * apply (el_cons true [32]); auto; [apply (el_cons true []); auto; [apply sp_name; auto| | |]| |intros _ (b & Q & _); discriminate].
        -- apply (el_cons true [32]); auto; [apply int_read54; [reflexivity|discriminate|reflexivity]|constructor; auto|]. intros _ (b & Q & _). discriminate.
        -- right. right. exists 32. eexists. split; [reflexivity|]. left. unfold white. lia.
        -- intros _ (b & Q & _). discriminate.
        -- right. right. exists 47. eexists. split; [reflexivity|]. right. unfold delim. lia.
      * right. right. exists 32. eexists. split; [reflexivity|]. left. unfold white. lia.
      * intros _ (b & Q & _). discriminate.
Qed.
Lemma two_tables : Forall (table_in two_file) [new_table; old_table].
Proof.
  destruct two_trailers as [T1 T2].
  assert (D : forall s, s <> [] -> forallb (fun c => (48 <=? c) && (c <=? 57)) s = true -> digits s) by (intros; apply digs; auto).
  assert (B0 : blanks []) by constructor. assert (B1 : blanks [32]) by (constructor; [reflexivity|constructor]). assert (B2 : blanks [32; 32]) by (constructor; [reflexivity|exact B1]).
  assert (L1 : line_break [10]) by (left; auto). assert (L2 : line_break [13; 10]) by (right; right; auto).
  constructor; [|constructor; [|constructor]].
  - split; [|split; [cbn; lia|]].
    + exists [10], (B "2" ++ [32; 32] ++ B "1" ++ [32] ++ [10] ++ ((B "0000000156" ++ [32] ++ B "00000" ++ [32] ++ [110] ++ [32] ++ [10]) ++ []) ++ []), [32], 10, [], (B "<</Root 1 0 R/Prev 54>>").
      split; [reflexivity|]. split; [auto|]. split; [|auto].
      apply (ss_cons (B "2") (B "1") [32; 32] [32] [10] [mk_tabent 156 0 true]); auto; try discriminate; try (apply D; [discriminate|reflexivity]); [|constructor].
      constructor; [|constructor]. apply (en_text (B "0000000156") (B "00000") true [32] [10]); auto; apply D; (discriminate || reflexivity).
    + exists (firstn 173 two_file), [], (skipn (173 + length (ft_text new_table) + 9) two_file). split; [vm_compute; reflexivity|]. split; [reflexivity|constructor].
  - split; [|split; [cbn; lia|]].
    + exists [13; 10], (B "0" ++ [32] ++ B "1" ++ [] ++ [13; 10] ++ ((B "0" ++ [32] ++ B "65535" ++ [32] ++ [102] ++ [] ++ [13; 10]) ++ []) ++
        (B "1" ++ [32] ++ B "2" ++ [] ++ [13; 10] ++ ((B "9" ++ [32] ++ B "0" ++ [32] ++ [110] ++ [] ++ [13; 10]) ++ (B "0000000035" ++ [32] ++ B "00000" ++ [32] ++ [110] ++ [32] ++ [13; 10]) ++ []) ++ [])), [], 13, [10], (B "<</Root 1 0 R>>").
      split; [reflexivity|]. split; [auto|]. split; [|split; [auto|split; [auto|split; [repeat constructor; unfold white; lia|auto]]]].
      apply (ss_cons (B "0") (B "1") [32] [] [13; 10] [mk_tabent 0 65535 false]); auto; try discriminate; try (apply D; [discriminate|reflexivity]).
      * constructor; [|constructor]. apply (en_text (B "0") (B "65535") false [] [13; 10]); auto; apply D; (discriminate || reflexivity).
      * apply (ss_cons (B "1") (B "2") [32] [] [13; 10] [mk_tabent 9 0 true; mk_tabent 35 0 true]); auto; try discriminate; try (apply D; [discriminate|reflexivity]); [|constructor].
        constructor; [|constructor; [|constructor]]; [apply (en_text (B "9") (B "0") true [] [13; 10])|apply (en_text (B "0000000035") (B "00000") true [32] [13; 10])]; auto; apply D; (discriminate || reflexivity).
    + exists (firstn 54 two_file), [10], (skipn (54 + length (ft_text old_table) + 1 + 9) two_file). split; [vm_compute; reflexivity|]. split; [reflexivity|]. apply gap_white; [unfold white; lia|constructor].
Qed.
Lemma wf_trailers : wfv (PDict (ft_trailer new_table)) /\ wfv (PDict (ft_trailer old_table)).
Proof.
  pose proof root_name. pose proof prev_name. split; apply wf_dict; try (repeat constructor; cbn; intuition discriminate).
Qed.
Lemma obj_text (o : obj) w3 s : @content store_codec o s -> closed o -> (exists c r, s = c :: r /\ delim c) -> w3 = [] -> forall n a, decimal a = n -> digits a ->
  @object_text store_codec n 0 o (a ++ [32] ++ B "0" ++ [32] ++ B "obj" ++ w3 ++ s ++ [] ++ B "endobj").
Proof.
  intros C CL DL -> n a E [NA FA]. assert (W : Forall white [32]) by (repeat constructor; unfold white; lia). exists a, [32], (B "0"), [32], [], s, []. split; [reflexivity|]. split; auto. split; auto. split; auto. split; [discriminate|].
  split; [change (B "0") with [48]; repeat constructor; unfold decdigit; lia|]. split; [reflexivity|]. split; auto. split; [discriminate|]. split; auto. split; [discriminate|]. split; [constructor|]. split; [right; auto|]. split; [auto|]. split; [constructor|left; auto].
Qed.
Lemma two_objects : @object_in store_codec two_file 1 (mk_tabent 9 0 true) (PDict [(B "/Pages", PList [])]) /\ @object_in store_codec two_file 2 (mk_tabent 35 0 true) (PBytes (B "(old)")) /\
  @object_in store_codec two_file 2 (mk_tabent 156 0 true) (PList [PInt 2]).
Proof.
  assert (G0 : gap []) by constructor. pose proof pages_name as PN. split; [|split].
  - exists (firstn 9 two_file), (B "1 0 obj<</Pages[]>>endobj"), (skipn (9 + 25) two_file). split; [vm_compute; reflexivity|]. split; [reflexivity|].
    apply (obj_text _ [] (B "<<" ++ ([] ++ B "/Pages" ++ ([] ++ (B "[" ++ [] ++ B "]") ++ [])) ++ B ">>")) with (a := B "1"); auto; [|exact Logic.I|exists 60; eexists; split; [reflexivity|unfold delim; lia]|apply digs; [reflexivity|discriminate]].
    apply co_plain; [|discriminate]. apply (sp_dict [(B "/Pages", _)]); [repeat constructor; cbn; tauto|repeat constructor; auto|].
    apply (el_cons true []); auto; [apply sp_name; auto| | |].
    + apply (el_cons true []); auto; [apply sp_array; constructor; auto|constructor; auto|]. intros _ (b & Q & _). discriminate.
    + right. right. exists 91. eexists. split; [reflexivity|]. right. unfold delim. lia.
    + intros _ (b & Q & _). discriminate.
  - exists (firstn 35 two_file), (B "2 0 obj(old)endobj"), (skipn (35 + 18) two_file). split; [vm_compute; reflexivity|]. split; [reflexivity|].
    apply (obj_text _ [] (B "(old)")) with (a := B "2"); auto; [|exact Logic.I|exists 40; eexists; split; [reflexivity|unfold delim; lia]|apply digs; [reflexivity|discriminate]].
    apply co_string. exists (B "old"). split; [reflexivity|]. apply (lb_char 111); try lia. apply (lb_char 108); try lia. apply (lb_char 100); try lia. constructor.
  - exists (firstn 156 two_file), (B "2 0 obj[2]endobj"), (skipn (156 + 16) two_file). split; [vm_compute; reflexivity|]. split; [reflexivity|].
    apply (obj_text _ [] (B "[" ++ ([] ++ B "2" ++ []) ++ B "]")) with (a := B "2"); auto; [|exact Logic.I|exists 91; eexists; split; [reflexivity|unfold delim; lia]|apply digs; [reflexivity|discriminate]].
    apply co_plain; [|discriminate]. apply sp_array. apply (el_cons false []); auto; [apply int_read54; [reflexivity|discriminate|reflexivity]|constructor; auto|discriminate].
Qed.
Lemma two_lists s n x : In s [new_table; old_table] -> lists (ft_list s) n x -> te_use x = true ->
  (s = new_table /\ n = 2 /\ x = mk_tabent 156 0 true) \/ (s = old_table /\ (n = 1 /\ x = mk_tabent 9 0 true \/ n = 2 /\ x = mk_tabent 35 0 true)).
Proof.
  intros [<-|[<-|[]]] (first & es & k & I & N & ->) U.
  - destruct I as [E|[]]. injection E as <- <-. destruct k as [|[|k]]; cbn in N; try discriminate. injection N as <-. left. auto.
  - right. split; auto. destruct I as [E|[E|[]]]; injection E as <- <-; destruct k as [|[|[|k]]]; cbn in N; try discriminate; injection N as <-; [discriminate|left; auto|right; auto].
Qed.
Lemma two_tabled : @tabled_file store_codec two_file [new_table; old_table].
Proof.
  destruct two_objects as (O1 & O2 & O3). destruct wf_trailers as [W1 W2]. constructor.
  - exact two_tables.
  - apply lk_next; [reflexivity|vm_compute; lia|]. apply lk_first. reflexivity.
  - constructor; [split; [reflexivity|auto]|]. constructor; [split; [reflexivity|auto]|constructor].
  - intros s n x y I LX LY UX UY. destruct (two_lists _ _ _ I LX UX) as [(-> & -> & ->)|(-> & [(-> & ->)|(-> & ->)])]; destruct (two_lists _ _ _ I LY UY) as [(Q & N & ->)|(Q & [(N & ->)|(N & ->)])]; first [congruence|discriminate Q].
  - intros s n x I LX UX _. destruct (two_lists _ _ _ I LX UX) as [(-> & -> & ->)|(-> & [(-> & ->)|(-> & ->)])]; eauto.
  - exists new_table, [old_table]. split; auto. exists (firstn 236 two_file), [32], (B "173"), [10], []. split; [vm_compute; reflexivity|]. split; [discriminate|]. split; [repeat constructor; unfold white; lia|].
    split; [apply digs; [reflexivity|discriminate]|]. split; [reflexivity|]. split; [discriminate|]. split; [repeat constructor; unfold white; lia|]. split; [constructor|]. vm_compute. lia.
  - exists new_table, [old_table], 2, (mk_tabent 156 0 true). split; auto. split; [exists 2, [mk_tabent 156 0 true], 0%nat; split; [left; auto|auto]|]. split; auto. split; [lia|].
    intros s' x' I LX UX. destruct I as [<-|[]]. destruct (two_lists old_table 2 x' (or_intror (or_introl eq_refl)) LX UX) as [(Q & _)|(_ & [(Q & _)|(_ & ->)])]; [discriminate Q|discriminate Q|discriminate].
Qed.
(* object 2 has the value that the newest table gives, object 1 the one of the first *)
Example C102_case : @tabled_file store_codec two_file [new_table; old_table] /\ newest [new_table; old_table] 1 (mk_tabent 9 0 true) /\ newest [new_table; old_table] 2 (mk_tabent 156 0 true) /\
  exists d, @loads store_codec 1 two_file = Ok d /\ @value store_codec d 1 = Ok (PDict [(B "/Pages", PList [])]) /\ @value store_codec d 2 = Ok (PList [PInt 2]).
Proof.
  split; [exact two_tabled|]. split; [|split].
  - apply nw_older; [|apply nw_here; [exists 1, [mk_tabent 9 0 true; mk_tabent 35 0 true], 0%nat; split; [right; left; auto|auto]|auto]].
    intros y LY. destruct (te_use y) eqn:U; auto. destruct (two_lists new_table 1 y (or_introl eq_refl) LY U) as [(_ & Q & _)|(Q & _)]; discriminate Q.
  - apply nw_here; [exists 2, [mk_tabent 156 0 true], 0%nat; split; [left; auto|auto]|auto].
  - eexists. split; [vm_compute; reflexivity|]. split; vm_compute; reflexivity.
Qed.
(* an array is added; the file is saved and opened again *)
Definition two_doc : doc := Eval vm_compute in get_ok no_doc (@loads store_codec 1 two_file).
Definition two_edited : doc := Eval vm_compute in get_ok no_doc (let* (d1, _) := add_object two_doc (PList [PRef 0 2]) in Ok d1).
Definition two_written := Eval vm_compute in get_ok ([], no_doc) (@writefile store_codec two_edited).
Example C102_updates_case : @maintained store_codec 1 two_file 1 two_file two_doc /\ @revised store_codec two_doc two_edited /\ @writefile store_codec two_edited = Ok two_written /\
  blen (fst two_written) < 10 ^ 10 /\ plainly_saved two_edited (snd two_written) (fst two_written) /\
  exists d3, @loads store_codec 2 (fst two_written) = Ok d3 /\ @value store_codec d3 2 = Ok (PList [PInt 2]) /\ @value store_codec d3 3 = Ok (PList [PRef 0 2]).
Proof.
  split; [apply Ma_open; vm_compute; reflexivity|]. split.
  { eapply Re_add with (d := two_doc) (o := PList [PRef 0 2]); [apply Re_none|apply savableb_ok; vm_compute; reflexivity|vm_compute; reflexivity]. }
  split; [vm_compute; reflexivity|]. split; [vm_compute; reflexivity|]. split; [left; vm_compute; reflexivity|].
  eexists. split; [vm_compute; reflexivity|]. split; vm_compute; reflexivity.
Qed.
