(* Properties of files with xref tables, xref streams and object streams as other programs write them *)
From Coq Require Import String ZifyBool ZifyNat.
From Verif Require Import PyBase Model_Filters Model_Objects Model_Filestruct Model_Text Model_Docstruct Model_Api.
From Verif Require Import Spec_Filters Spec_Objects Spec_Filestruct Spec_Docstruct Spec_Api Spec_Save Spec_Packed Spec_Foreign Spec_Syntax Spec_Files Spec_Streams Spec_Sections.
From Verif Require Import Facts_Base Facts_Xstm Facts_Doc Facts_Foreign Facts_PackCheck Facts_Stays Facts_Spell Facts_Sections Cases_Docstruct.

(* ---- C106 ---- *)
(* full statement: a file whose xref sections, tables or streams, follow the standard is opened;
   each object has the value found where the newest section that has an entry for it says, in
   the file or in an object stream, whatever was read before; it has no value when this entry
   is free.  Missing below: objects freed by a newer section (C102_free_refuted), object streams
   with a member that a newer section has elsewhere (C106_stale_refuted) or that has the highest
   number of the file (C93_unlisted_refuted), hybrid-reference files *)
Theorem C106_files_partial : forall {ZL : Zlib} F s r f, sections_file F (s :: r) -> (length r <= f)%nat -> exists d, loads f F = Ok d /\
  (forall l d', doc_reads d l d' ->
    (forall n off gen o, 0 < n -> current (s :: r) n (At off gen) -> object_at F n off gen o -> exists v, value d' n = Ok v /\ peq o v) /\
    (forall n env idx off gen l o, 0 < n -> current (s :: r) n (Inside env idx) -> current (s :: r) env (At off gen) -> objstm_at F env off gen l -> In (n, o) l -> exists v, value d' n = Ok v /\ peq o v) /\
    (forall n v, 0 < n -> (forall t p, In t (s :: r) -> In (n, p) (fs_list t) -> p = Free) -> value d' n = Ok v -> v = PNone) /\
    exists t, value d' 0 = Ok (PDict t) /\ forall k, k <> B "/Size" -> k <> B "/Prev" -> k <> B "/DecodeParms" ->
      match dget k (fs_trailer s) with None => dget k t = None | Some v => exists w, dget k t = Some w /\ peq v w end).
Proof.
  intros ZL F s r f SF LF. destruct (sections_load F s r f SF LF) as (d & LD & CO & A1 & A2 & A3 & t & A4 & A5). exists d. split; [exact LD|].
  intros l d' RD. destruct (reads_stable d l d' CO RD) as [_ V]. split; [|split; [|split]].
  - intros n off gen o N. rewrite (V n) by lia. exact (A1 n off gen o N).
  - intros n env idx off gen l0 o N. rewrite (V n) by lia. exact (A2 n env idx off gen l0 o N).
  - intros n v N. rewrite (V n) by lia. exact (A3 n v N).
  - exists t. rewrite (V 0) by lia. auto.
Qed.
Print Assumptions C106_files_partial.

(* such a file is updated as C93 says: any number of sessions only append to it *)
Theorem C106_updates_partial : forall {ZL : Zlib} F s r f n G d0 d1 out d2, sections_file F (s :: r) -> (length r <= f)%nat -> stream_spare (s :: r) -> oldest_num (s :: r) = None \/ zlib_ok ->
  maintained f F n G d0 -> revised d0 d1 -> writefile d1 = Ok (out, d2) -> blen out < 10 ^ 10 -> plainly_saved d1 d2 out ->
  (exists R, G = F ++ R) /\ (exists R, out = G ++ R) /\
  exists d3, loads (S n) out = Ok d3 /\ maintained f F (S n) out d3 /\ coherent d3 /\
    (forall k, 0 < k -> oldest_num (s :: r) <> Some k -> match value d1 k with Ok v => exists w, value d3 k = Ok w /\ peq v w | r => value d3 k = r end) /\
    exists ta tb m, value d1 0 = Ok (PDict ta) /\ value d3 0 = Ok (PDict tb) /\ same_trailer ta tb /\
      (oldest_num (s :: r) = None -> same_entries K_Prev (dset K_Size (PInt m) ta) tb).
Proof. intros ZL F s r f. exact (sections_update F s r f). Qed.
Print Assumptions C106_updates_partial.

(* a first section that is a stream: objects 2 and 3 are in the object stream 4 *)
Definition mixed_members : list (Z * obj) := [(2, PDict [(B "/Kids", PList []); (B "/Count", PInt 0)]); (3, PList [PRef 0 6])].
Definition mixed_data : bytes := Eval vm_compute in fst (objects_words mixed_members [1; 24]) ++ snd (objects_words mixed_members [1; 24]).
Definition mixed_stm : dict := Eval vm_compute in [(B "/Type", PStr (B "/ObjStm")); (B "/N", PInt 2); (B "/First", PInt 10); (B "/Length", PInt 43)].
Definition mixed_rows : list xrow := [mk_xrow 0 0 255; mk_xrow 1 9 0; mk_xrow 2 4 0; mk_xrow 2 4 1; mk_xrow 1 42 0; mk_xrow 1 164 0].
Definition mixed_xref : bytes := Eval vm_compute in flat_map (fun x => [xr_type x; xr_two x / 256; xr_two x mod 256; xr_three x]) mixed_rows.
Definition mixed_xdict : dict := Eval vm_compute in [(B "/Type", PStr (B "/XRef")); (B "/W", PList [PInt 1; PInt 2; PInt 1]); (B "/Size", PInt 6); (B "/Root", PRef 0 1); (B "/Length", PInt 24)].
Definition mixed_first : bytes := Eval vm_compute in
  B "%PDF-1.5" ++ [10] ++ object_words 1 (PDict [(B "/Pages", PRef 0 2)]) ++ [10] ++ stream_words 4 mixed_stm mixed_data ++ [10] ++
  stream_words 5 mixed_xdict mixed_xref ++ [10] ++ B "startxref" ++ [10] ++ B "164" ++ [10] ++ B "%%EOF" ++ [10].
(* then a table *)
Definition mixed_table (n : bytes) : bytes := B "xref" ++ [10] ++ n ++ B " 1" ++ [10] ++ B "0000000302 00000 n " ++ [10] ++ B "trailer" ++ [10].
Definition mixed_trailer : dict := Eval vm_compute in [(B "/Root", PRef 0 1); (B "/Size", PInt 7); (B "/Prev", PInt 164)].
Definition mixed_file : bytes := Eval vm_compute in mixed_first ++ object_words 6 (PList [PRef 0 2]) ++ [10] ++
  mixed_table (B "6") ++ words (PDict mixed_trailer) ++ [10] ++ B "startxref" ++ [10] ++ B "326" ++ [10] ++ B "%%EOF" ++ [10].

(* here the table has a new value of object 2, which is in the object stream too: reading
   object 3 brings its old value back *)
Definition stale_file : bytes := Eval vm_compute in mixed_first ++ object_words 2 (PList [PInt 1]) ++ [10] ++
  mixed_table (B "2") ++ words (PDict mixed_trailer) ++ [10] ++ B "startxref" ++ [10] ++ B "322" ++ [10] ++ B "%%EOF" ++ [10].
Theorem C106_stale_refuted : exists F d d', (exists a b, F = a ++ object_words 2 (PList [PInt 1]) ++ [10] ++ mixed_table (B "2") ++ b /\ length a = 302%nat) /\
  @loads store_codec 1 F = Ok d /\ @value store_codec d 2 = Ok (PList [PInt 1]) /\
  @doc_reads store_codec d [3] d' /\ @value store_codec d' 2 = Ok (PDict [(B "/Count", PInt 0); (B "/Kids", PList [])]).
Proof.
  exists stale_file. eexists _, _. split; [exists (firstn 302 stale_file), (skipn (322 + length (mixed_table (B "2"))) stale_file); split; vm_compute; reflexivity|].
  split; [vm_compute; reflexivity|]. split; [vm_compute; reflexivity|]. split; [eapply Rd_cons with (g := 0); [lia|vm_compute; reflexivity|constructor]|vm_compute; reflexivity].
Qed.
Print Assumptions C106_stale_refuted.

Definition mixed_old : fsection := mk_fsection 164 (map (fun p => (fst p, row_place (snd p))) (combine [0; 1; 2; 3; 4; 5] mixed_rows)) mixed_xdict (stream_words 5 mixed_xdict mixed_xref) (Some 5).
Definition mixed_new : fsection := mk_fsection 326 (table_places [(6, [mk_tabent 302 0 true])]) mixed_trailer (mixed_table (B "6") ++ words (PDict mixed_trailer)) None.
Lemma mixed_old_list : fs_list mixed_old = [(0, Free); (1, At 9 0); (2, Inside 4 0); (3, Inside 4 1); (4, At 42 0); (5, At 164 0)].
Proof. reflexivity. Qed.
Lemma mixed_new_list : fs_list mixed_new = [(6, At 302 0)].
Proof. reflexivity. Qed.
Lemma mixed_xobject : @object_text store_codec 5 0 (PStream mixed_xdict (Some mixed_xref) (Some mixed_xref)) (fs_text mixed_old).
Proof. apply words_stream; [lia|reflexivity| |discriminate|vm_compute; reflexivity]. intros (a & b & E). assert (X : In 101 mixed_xref) by (rewrite E; apply in_or_app; right; left; reflexivity). vm_compute in X. intuition discriminate. Qed.
Lemma mixed_objstm : @object_text store_codec 4 0 (PStream mixed_stm (Some mixed_data) (Some mixed_data)) (stream_words 4 mixed_stm mixed_data).
Proof. apply words_stream; [lia|reflexivity| |discriminate|vm_compute; reflexivity]. intros (a & b & E). assert (X : In 101 mixed_data) by (rewrite E; apply in_or_app; right; left; reflexivity). vm_compute in X. intuition discriminate. Qed.
Lemma cut (F : bytes) (k : nat) (txt : bytes) : firstn (length txt) (skipn k F) = txt -> (k <= length F)%nat -> exists post, F = firstn k F ++ txt ++ post /\ length (firstn k F) = k.
Proof. intros E L. exists (skipn (length txt) (skipn k F)). split; [|apply firstn_length_le; auto]. rewrite <- (firstn_skipn k F) at 1. f_equal. rewrite <- (firstn_skipn (length txt) (skipn k F)) at 1. now rewrite E. Qed.
Lemma mixed_at n k o txt : @object_text store_codec n 0 o txt -> firstn (length txt) (skipn k mixed_file) = txt -> (k <= length mixed_file)%nat -> @object_at store_codec mixed_file n (Z.of_nat k) 0 o.
Proof. intros OT E L. destruct (cut _ _ _ E L) as (post & EF & LK). exists (firstn k mixed_file), txt, post. split; auto. Qed.
Lemma mixed_streams : @objstm_at store_codec mixed_file 4 42 0 mixed_members.
Proof.
  exists mixed_stm, mixed_data, (Some mixed_data), 10. split; [apply (mixed_at 4 42 _ _ mixed_objstm); vm_compute; [reflexivity|lia]|]. split; [exact (words_objects mixed_members [1; 24] eq_refl eq_refl eq_refl)|]. split; [discriminate|].
  split; [repeat constructor; cbn; intuition discriminate|]. split; [reflexivity|]. eexists. reflexivity.
Qed.
Lemma mixed_current : current [mixed_new; mixed_old] 4 (At 42 0) /\ current [mixed_new; mixed_old] 2 (Inside 4 0) /\ current [mixed_new; mixed_old] 3 (Inside 4 1) /\ current [mixed_new; mixed_old] 6 (At 302 0).
Proof.
  assert (C : forall n p, In (n, p) (fs_list mixed_old) -> p <> Free -> n <> 6 -> current [mixed_new; mixed_old] n p).
  { intros n p I NF N. apply cu_older; [|now apply cu_here]. rewrite mixed_new_list. intros q [Q|[]]. congruence. }
  rewrite mixed_old_list in C. split; [apply C; [cbn; tauto|discriminate|lia]|]. split; [apply C; [cbn; tauto|discriminate|lia]|]. split; [apply C; [cbn; tauto|discriminate|lia]|]. apply cu_here; [left; reflexivity|discriminate].
Qed.
Lemma mixed_listed s n p : In s [mixed_new; mixed_old] -> In (n, p) (fs_list s) -> (s = mixed_new /\ n = 6 /\ p = At 302 0) \/
  (s = mixed_old /\ In (n, p) [(0, Free); (1, At 9 0); (2, Inside 4 0); (3, Inside 4 1); (4, At 42 0); (5, At 164 0)]).
Proof. intros [<-|[<-|[]]] I; [rewrite mixed_new_list in I; destruct I as [E|[]]; injection E as <- <-; auto|rewrite mixed_old_list in I; auto]. Qed.
Lemma mixed_inside s n env idx : In s [mixed_new; mixed_old] -> In (n, Inside env idx) (fs_list s) -> s = mixed_old /\ env = 4 /\ (n = 2 /\ idx = 0 \/ n = 3 /\ idx = 1).
Proof. intros I J. destruct (mixed_listed _ _ _ I J) as [(_ & _ & Q)|(-> & K)]; [discriminate|]. cbn in K. destruct K as [E|[E|[E|[E|[E|[E|[]]]]]]]; try discriminate E; injection E as <- <- <-; auto. Qed.
Lemma mixed_ok : @sections_file store_codec mixed_file [mixed_new; mixed_old].
Proof.
  destruct mixed_current as (C4 & C2 & C3 & C6). constructor.
  - assert (L1 : line_break [10]) by (left; auto). assert (G : gap [10]) by (apply gap_white; [unfold white; lia|constructor]). constructor; [|constructor; [|constructor]].
    + split; [|split; [cbn; lia|]].
      * apply st_table. exists [10], (B "6" ++ [32] ++ B "1" ++ [] ++ [10] ++ ((B "0000000302" ++ [32] ++ B "00000" ++ [32] ++ [110] ++ [32] ++ [10]) ++ []) ++ []), [], 10, [], (words (PDict mixed_trailer)).
        split; [reflexivity|]. split; [auto|]. split; [|split; [constructor|split; [auto|split; [constructor|apply words_spelled; reflexivity]]]].
        apply (ss_cons (B "6") (B "1") [32] [] [10] [mk_tabent 302 0 true]); auto; try discriminate; try (apply digs_ok; [discriminate|reflexivity]); try (constructor; [reflexivity|constructor]); [constructor|constructor|constructor].
        2:constructor. apply (en_text (B "0000000302") (B "00000") true [32] [10]); auto; try (apply digs_ok; [discriminate|reflexivity]). constructor; [reflexivity|constructor].
      * destruct (cut mixed_file 326 (fs_text mixed_new ++ [10] ++ B "startxref")) as (post & EF & LK); [vm_compute; reflexivity|vm_compute; lia|]. exists (firstn 326 mixed_file), [10], post. split; [rewrite EF at 1; now rewrite <- !app_assoc|auto].
    + split; [|split; [cbn; lia|]].
      * apply (st_stream 164 [0; 1; 2; 3; 4; 5] mixed_rows 5 0 mixed_xdict mixed_xref (Some mixed_xref)); [exact mixed_xobject|]. exists 1%nat, 2%nat, 1%nat. split; [lia|]. split; [reflexivity|]. split; [|split; [exact (byte_rows mixed_rows eq_refl)|cbn; lia]].
        right. exists 6%nat. split; [lia|]. split; [reflexivity|]. split; reflexivity.
      * destruct (cut mixed_file 164 (fs_text mixed_old ++ [10] ++ B "startxref")) as (post & EF & LK); [vm_compute; reflexivity|vm_compute; lia|]. exists (firstn 164 mixed_file), [10], post. split; [rewrite EF at 1; now rewrite <- !app_assoc|auto].
  - apply jn_next; [reflexivity|vm_compute; lia|]. apply jn_first. reflexivity.
  - repeat (constructor; [split; [reflexivity|apply wfb_ok; reflexivity]|]). constructor.
  - intros s n p q I J K NP NQ. destruct (mixed_listed _ _ _ I J) as [(-> & -> & ->)|(-> & J')]; destruct (mixed_listed _ _ _ I K) as [(E & _ & ->)|(E & K')]; try discriminate E; auto.
    cbn in J', K'. repeat (destruct J' as [J'|J']; [injection J' as <- <-; repeat (destruct K' as [K'|K']; [first [discriminate K'|injection K' as <-; reflexivity]|]); destruct K'|]). destruct J'.
  - intros s n off gen I J N. destruct (mixed_listed _ _ _ I J) as [(-> & -> & E)|(-> & J')].
    + injection E as -> ->. eexists. apply (mixed_at 6 302 (PList [PRef 0 2]) (object_words 6 (PList [PRef 0 2]))); [apply words_object; [lia|reflexivity|discriminate]|vm_compute; reflexivity|vm_compute; lia].
    + cbn in J'. destruct J' as [E|[E|[E|[E|[E|[E|[]]]]]]]; try discriminate E; injection E as <- <- <-.
      * eexists. apply (mixed_at 1 9 (PDict [(B "/Pages", PRef 0 2)]) (object_words 1 (PDict [(B "/Pages", PRef 0 2)]))); [apply words_object; [lia|reflexivity|discriminate]|vm_compute; reflexivity|vm_compute; lia].
      * eexists. apply (mixed_at 4 42 _ _ mixed_objstm); [vm_compute; reflexivity|vm_compute; lia].
      * eexists. apply (mixed_at 5 164 _ _ mixed_xobject); [vm_compute; reflexivity|vm_compute; lia].
  - intros newer s older n env idx E J. assert (I : In s [mixed_new; mixed_old]) by (rewrite E; apply in_or_app; right; left; auto). destruct (mixed_inside _ _ _ _ I J) as (-> & -> & NI).
    assert (older = []). { destruct newer as [|a [|b newer]]; [discriminate E| |destruct newer; discriminate E]. injection E as _ E. congruence. } subst older.
    split; [lia|]. intros _. split; [lia|]. split; [lia|]. split.
    + exists mixed_old, 42, 0. split; [left; auto|]. rewrite mixed_old_list. cbn. tauto.
    + intros s' env' idx' [<-|[]] K. rewrite mixed_old_list in K. cbn in K. intuition discriminate.
  - intros s n env idx I J. destruct (mixed_inside _ _ _ _ I J) as (-> & -> & NI). exists mixed_old, 5, 164, 0. split; [right; left; auto|]. split; [rewrite mixed_old_list; cbn; tauto|lia].
  - intros n env idx N C. assert (X : env = 4 /\ (n = 2 \/ n = 3)).
    { inversion C as [s r n' p I NF|s r n' p NO C']; subst; [destruct (mixed_inside mixed_new n env idx (or_introl eq_refl) I) as (Q & _); discriminate Q|].
      inversion C' as [s r n' p I NF|s r n' p NO' C5]; subst; [|inversion C5]. destruct (mixed_inside mixed_old n env idx (or_intror (or_introl eq_refl)) I) as (_ & -> & K). split; auto. lia. }
    destruct X as (-> & NN). exists 42, 0, mixed_members. split; [exact C4|]. split; [exact mixed_streams|]. split; [cbn; lia|].
    intros m M. cbn in M. destruct M as [M|[M|[]]]; subst m; (split; [lia|eauto]).
  - exists mixed_new, [mixed_old]. split; auto. exists (firstn 398 mixed_file), [10], (B "326"), [10], [10]. split; [vm_compute; reflexivity|]. split; [discriminate|]. split; [apply white_line; auto|].
    split; [apply digs_ok; [discriminate|reflexivity]|]. split; [reflexivity|]. split; [discriminate|]. split; [apply white_line; auto|]. split; [constructor; [unfold eol; auto|constructor]|]. vm_compute. lia.
  - exists mixed_new, [mixed_old], 6, (At 302 0). split; auto. split; [left; auto|]. split; [discriminate|]. split; [lia|]. split; [discriminate|].
    intros s' p' [<-|[]] K. rewrite mixed_old_list in K. cbn in K. intuition discriminate.
Qed.
Lemma mixed_spare : stream_spare [mixed_new; mixed_old].
Proof.
  intros k E. injection E as <-. split; [lia|]. split; [exists mixed_new, [mixed_old]; split; auto; split; left; reflexivity|]. split.
  - exists mixed_old, (At 164 0). split; [right; left; auto|]. split; [rewrite mixed_old_list; cbn; tauto|discriminate].
  - intros s n env idx I J. destruct (mixed_inside _ _ _ _ I J) as (_ & -> & NI). lia.
Qed.
Example C106_case : @sections_file store_codec mixed_file [mixed_new; mixed_old] /\ current [mixed_new; mixed_old] 3 (Inside 4 1) /\ current [mixed_new; mixed_old] 4 (At 42 0) /\ @objstm_at store_codec mixed_file 4 42 0 mixed_members /\
  exists d, @loads store_codec 1 mixed_file = Ok d /\ @value store_codec d 3 = Ok (PList [PRef 0 6]) /\ @value store_codec d 6 = Ok (PList [PRef 0 2]).
Proof.
  destruct mixed_current as (C4 & C2 & C3 & C6). split; [exact mixed_ok|]. split; [exact C3|]. split; [exact C4|]. split; [exact mixed_streams|]. eexists. split; [vm_compute; reflexivity|]. split; vm_compute; reflexivity.
Qed.
Definition mixed_doc : doc := Eval vm_compute in get_ok no_doc (@loads store_codec 1 mixed_file).
Definition mixed_edited : doc := Eval vm_compute in get_ok no_doc (let* (d1, _) := add_object mixed_doc (PList [PRef 0 3]) in Ok d1).
Definition mixed_written := Eval vm_compute in get_ok ([], no_doc) (@writefile store_codec mixed_edited).
Example C106_updates_case : stream_spare [mixed_new; mixed_old] /\ @maintained store_codec 1 mixed_file 1 mixed_file mixed_doc /\ @revised store_codec mixed_doc mixed_edited /\ @writefile store_codec mixed_edited = Ok mixed_written /\
  blen (fst mixed_written) < 10 ^ 10 /\ plainly_saved mixed_edited (snd mixed_written) (fst mixed_written) /\
  exists d3, @loads store_codec 2 (fst mixed_written) = Ok d3 /\ @value store_codec d3 3 = Ok (PList [PRef 0 6]) /\ @value store_codec d3 7 = Ok (PList [PRef 0 3]).
Proof.
  split; [exact mixed_spare|]. split; [apply Ma_open; vm_compute; reflexivity|]. split.
  { eapply Re_add with (d := mixed_doc) (o := PList [PRef 0 3]); [apply Re_none|apply savableb_ok; vm_compute; reflexivity|vm_compute; reflexivity]. }
  split; [vm_compute; reflexivity|]. split; [vm_compute; reflexivity|]. split; [right; apply xref_cleanb_ok; vm_compute; reflexivity|].
  eexists. split; [vm_compute; reflexivity|]. split; vm_compute; reflexivity.
Qed.
