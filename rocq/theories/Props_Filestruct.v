(* Properties C16-C20, C22-C24, C50-C53, C57-C60: files, cross-reference sections, scan *)
From Coq Require Import String Sorted Permutation.
From Verif Require Import PyBase Model_Filters Model_Objects Model_Filestruct Spec_Objects Spec_Filters Spec_Filestruct
  Facts_Base Facts_Top Facts_Filters Facts_Prov Facts_Xref Facts_Indirect Facts_Xstm Facts_Revision Facts_Scan Facts_Index Facts_Written.
From Verif Require Props_Objects.

(* ---------------- C16 ---------------- *)
Theorem C16_table_written : forall elems d nf, elems <> [] -> Forall (elem_ok nf) elems -> wfv (PDict d) ->
  exists txt, format_xref_table elems (PDict d) nf = Ok txt.
Proof. exact table_total. Qed.
Print Assumptions C16_table_written.
Theorem C16_table_roundtrip {ZL : Zlib} : forall elems d nf txt, format_xref_table elems (PDict d) nf = Ok txt ->
  Forall (elem_ok nf) elems -> wfv (PDict d) ->
  exists g pr, maximal_runs xe_num elems g /\
    forall pre post, follows (10 :: post) -> exists x,
      parse_xref_table_raw (pre ++ txt ++ post) (length pre) = Ok (Some x) /\
      map Some (xt_lines x) = flat_map (table_lines nf) g /\
      peq (PDict d) (xt_trailer x) /\
      xt_beg x = length pre /\ (xt_end x + 1 = length pre + length txt)%nat /\
      (* as index entries *)
      parse_xref_table (pre ++ txt ++ post) (length pre)
      = Ok (mk_ient 0 0 None None (Some (AInt (Z.of_nat (length pre + pr)))) None None None false
              (Some (Z.of_nat (length pre))) None None None false None
            :: flat_map in_use_entry elems) /\
      (exists q, skipn pr txt = W_trailer ++ [10] ++ q) /\
      (* as a section of a file *)
      forall p len rest startx, read_at p (Z.of_nat (length pre)) len = Ok (pre ++ txt ++ post, length pre, rest) ->
        exists d', read_section p (Z.of_nat (length pre)) (Z.of_nat (length pre) + len) startx
          = Ok (mk_ient 0 0 None None (Some (AInt (Z.of_nat (length pre + pr)))) None None None false
                  (Some (Z.of_nat (length pre))) None None None false None
                :: flat_map in_use_entry elems, d', pre ++ txt ++ post) /\ peq (PDict d) (PDict d').
Proof. exact table_roundtrip. Qed.
Print Assumptions C16_table_roundtrip.
Example C16_case : exists txt,
  let nf := [(0, 5); (5, 0)] in
  let elems := [mk_xe true 0 65534 None None; mk_xe false 1 0 (Some 15) None; mk_xe false 3 2 (Some 80) None; mk_xe true 5 0 None None] in
  format_xref_table elems (PDict [(B "/Size", PInt 6)]) nf = Ok txt /\ Forall (elem_ok nf) elems /\ wfv (PDict [(B "/Size", PInt 6)]) /\
  @parse_xref_table_raw store_codec txt 0 = Ok (Some (mk_xtab 0 114
    [XSub 0 2; XEnt 5 0 65535 (B "f"); XEnt 15 1 0 (B "n"); XSub 3 1; XEnt 80 3 2 (B "n"); XSub 5 1; XEnt 0 5 1 (B "f")]
    (PDict [(B "/Size", PInt 6)]))).
Proof.
  eexists. split; [vm_compute; reflexivity|]. split.
  - repeat (apply Forall_cons; [unfold elem_ok; cbn; repeat split; try lia; eexists; split; [reflexivity|lia]|]). constructor.
  - split; [Props_Objects.wfb|vm_compute; reflexivity].
Qed.

(* ---------------- C17 ---------------- *)
(* full statement: every strictly increasing list of entries is written and read back.  The
   field width is deduced from the greatest offset alone, so other fields may not fit: *)
Theorem C17_overflow {ZL : Zlib} : forall elems trailer nf num m b e,
  greatest_counter elems m -> 0 <= m -> bytes_for m b ->
  In e elems -> xe_free e = true -> 256 ^ Z.of_nat b <= xe_gen e + 1 ->
  forall r, format_xref_stream elems trailer nf num <> Ok r.
Proof. exact stream_overflow. Qed.
Print Assumptions C17_overflow.
Example C17_width_case : let elems := [mk_xe true 0 65534 None None; mk_xe false 1 0 (Some 15) None] in
  greatest_counter elems 15 /\ bytes_for 15 1 /\ 256 ^ Z.of_nat 1 <= 65534 + 1 /\
  @format_xref_stream store_codec elems [] [(0, 0)] 2 = Exc EOverflow.
Proof.
  cbn. split.
  - split; [eexists; split; [right; left; reflexivity|reflexivity]|]. intros e c [<-|[<-|[]]] E; inversion E; lia.
  - split; [unfold bytes_for; cbn; lia|]. split; [lia|reflexivity].
Qed.
Theorem C17_stream_written {ZL : Zlib} : forall elems trailer nf num m b,
  greatest_counter elems m -> 0 <= m -> bytes_for m b ->
  Forall (fits b nf) elems -> wfv (PDict trailer) -> plain_filter trailer -> zlib_ok ->
  exists txt d, format_xref_stream elems trailer nf num = Ok (txt, d).
Proof. exact stream_total. Qed.
Print Assumptions C17_stream_written.
Theorem C17_stream_roundtrip {ZL : Zlib} : forall elems trailer nf num txt d1, zlib_ok ->
  format_xref_stream elems trailer nf num = Ok (txt, d1) -> wfv (PDict trailer) -> plain_filter trailer ->
  exists g b content enc d' lines,
    maximal_runs xe_num elems g /\
    (forall k, ~ K_own k -> dget k d1 = dget k trailer) /\ dget K_Type d1 = Some (PStr V_XRef) /\
    peq (PDict d1) (PDict d') /\
    encode_stream content d1 = Ok enc /\
    parse_xref_stream_raw d' (Some content) = Ok lines /\
    Forall2 (stream_line b nf) (ranked 0 g) lines /\
    (enc <> [] -> ~ occurs W_endstream enc -> last enc 0 <> 13 -> forall pre post,
      parse_indirect_obj (pre ++ txt ++ post) (length pre)
      = Ok (mk_ind (Some (length pre)) (length pre + length txt - 1) num 0 (PStream d' (Some content) (Some enc))) /\
      (* as a section of a file *)
      forall p q last startx post0 n0 n1,
        read_at p q (last - q) = Ok (pre ++ txt ++ post0, length pre, n0) ->
        read_at p q (startx - q) = Ok (pre ++ txt ++ post, length pre, n1) ->
        read_section p q last startx
          = Ok (mk_ient 0 0 None None (Some (AInt q)) None None None false None (Some q) (Some num) None false None
                :: flat_map indexed_entry elems, d', pre ++ txt ++ post)).
Proof. exact xstream_roundtrip. Qed.
Print Assumptions C17_stream_roundtrip.
Example C17_case :
  let elems := [mk_xe true 0 65534 None None; mk_xe false 1 0 (Some 15) None; mk_xe false 2 0 (Some 3) (Some 1); mk_xe false 7 0 (Some 400) None] in
  exists txt d o ls, @format_xref_stream store_codec elems [(B "/Size", PInt 8)] [(0, 0)] 7 = Ok (txt, d) /\
  wfv (PDict [(B "/Size", PInt 8)]) /\ plain_filter [(B "/Size", PInt 8)] /\ @zlib_ok store_codec /\
  Forall (fits 2 [(0, 0)]) elems /\ bytes_for 400 2 /\
  @parse_indirect_obj store_codec txt 0 = Ok (mk_ind (Some 0%nat) (length txt - 1) 7 0 o) /\
  (exists dd ss ee, o = PStream dd ss ee /\ parse_xref_stream_raw dd ss = Ok ls /\
   map (fun l => (xs_free l, xs_num l, xs_off l, xs_gen l, xs_env l, xs_sec l)) ls
     = [(true, 0, 0, 65535, None, 0); (false, 1, 15, 0, None, 0); (false, 2, 3, 0, Some 1, 0); (false, 7, 400, 0, None, 1)]).
Proof.
  do 4 eexists. split; [vm_compute; reflexivity|]. split; [Props_Objects.wfb|]. split; [left; reflexivity|].
  split; [intros b F; reflexivity|]. split.
  - repeat (apply Forall_cons; [unfold fits; cbn; eexists; repeat split; try reflexivity; lia|]). constructor.
  - split; [unfold bytes_for; cbn; lia|]. split; [vm_compute; reflexivity|]. do 3 eexists. split; [reflexivity|].
    split; vm_compute; reflexivity.
Qed.

(* ---------------- C18 ---------------- *)
Theorem C18_free_list : forall chg, let del := map (fun c => snd (fst c)) (filter (fun c => is_del (snd c)) chg) in
  NoDup (0 :: del) ->
  chained (circular_deleted chg) (0 :: del ++ [0]) /\
  forall k, zlookup k (circular_deleted chg) <> None <-> In k (0 :: del).
Proof. exact free_list. Qed.
Print Assumptions C18_free_list.
Example C18_case : circular_deleted [((0, 7), Del); ((0, 2), Upd); ((0, 3), Del)] = [(0, 7); (7, 3); (3, 0)].
Proof. reflexivity. Qed.

(* ---------------- C19 ---------------- *)
Theorem C19_revision_layout {ZL : Zlib} : forall chg cur cache sp xsn R newi cache',
  build_revision_byte_stream chg cur cache sp xsn = Ok (R, newi, cache') ->
  Forall (fun c => 1 <= num_of c) chg -> NoDup (map num_of chg) ->
  (forall c, In c chg -> xsn <> Some (num_of c)) -> (forall x, xsn = Some x -> 0 <= x) ->
  (forall c e env, In c chg -> cell cur (num_of c) (SDict e) -> n_env e = Some env -> 0 <= env) ->
  even_lines (receiving cur chg) cache ->
  (forall c c' e', In c chg -> In c' chg -> emb cur c = true -> cell cur (num_of c') (SDict e') -> n_env e' <> Some (num_of c)) ->
  (forall e, cell cur 0 (SDict e) -> n_env e = None) ->
  forall P, blen P = sp ->
  exists l elems built cnt cache1,
    (* the end of the file *)
    (exists body, R = body ++ built ++ B "startxref" ++ [10] ++ dec cnt ++ [10] ++ B "%%EOF" ++ [10] /\ blen (P ++ body) = cnt) /\
    at_pos (P ++ R) cnt built /\
    (* objects are written after the earlier revisions and before the section *)
    Forall (fun e => truthy (xe_env e) = false -> forall c, xe_cnt e = Some c -> sp < c /\ c + 16 <= cnt) elems /\
    (* the section describes every change *)
    Permutation (((0, 0), Del) :: chg) l /\ Forall2 (placed (P ++ R) cur cache1 newi) l elems /\
    StronglySorted (fun a b => xe_num a <= xe_num b) elems /\
    (* objects keep their value in the cache, except the object streams being completed *)
    (forall n x, (forall c e, In c chg -> emb cur c = true -> cell cur (num_of c) (SDict e) -> n_env e <> Some n) ->
       cell cache1 n x <-> cell cache n x) /\
    length newi = length cur /\
    (forall k x, k <> 0 -> xsn <> Some k -> ~ In k (map num_of chg) -> cell newi k x <-> cell cur k x) /\
    (* as a stream *)
    match xsn with
    | Some x =>
        if x =? 0 then True else
        exists d0 d1, cell cache1 0 (PDict d0) /\
          format_xref_stream (elems ++ [mk_xe false x 0 (Some cnt) None]) d0 (circular_deleted chg) x = Ok (built, d1) /\
          cell cache' 0 (PDict d1) /\ (forall n y, n <> 0 -> cell cache' n y <-> cell cache1 n y) /\
          (exists e, cell cur 0 (SDict e) /\ cell newi 0 (SDict (with_next (Some (cnt + blen built)) (with_pos (Some (AInt cnt)) (with_xs (Some cnt) e))))) /\
          (exists e n, cell cur x (SDict e) /\ cell newi x (SDict (with_next n (with_pos (Some (AInt cnt)) e))))
    | None => True
    end /\
    (* as a table *)
    (xsn = None \/ xsn = Some 0 -> exists t,
        cell cache1 0 t /\ format_xref_table elems t (circular_deleted chg) = Ok built /\ cache' = cache1 /\
        (exists e pos, cell cur 0 (SDict e) /\ at_pos (P ++ R) pos (B "trailer") /\
           cell newi 0 (SDict (with_next (Some (cnt + blen built)) (with_pos (Some (AInt pos)) (with_xt (Some cnt) e)))))).
Proof. exact revision_layout. Qed.
Print Assumptions C19_revision_layout.
Example C19_case :
  let cur := [SDict (ient0 0 0); SDict (ient0 1 0); SDict (ient0 2 0); SDict (with_env (Some 4) (ient0 3 0)); SDict (ient0 4 0)] in
  let cache := [PDict [(B "/Size", PInt 5)]; PInt 77; PNone; PBool true;
                PStream [(B "/Type", PStr (B "/ObjStm"))] (Some []) None] in
  let chg := [((0, 1), Upd); ((0, 2), Del); ((0, 3), Add); ((0, 4), Add)] in
  exists R newi cache', @build_revision_byte_stream store_codec chg cur cache 500 None = Ok (R, newi, cache') /\
  Forall (fun c => 1 <= num_of c) chg /\ NoDup (map num_of chg) /\ even_lines (receiving cur chg) cache /\
  (forall c c' e', In c chg -> In c' chg -> emb cur c = true -> cell cur (num_of c') (SDict e') -> n_env e' <> Some (num_of c)) /\
  firstn 17 (skipn 1 R) = B "1 0 obj" ++ [10] ++ B "77" ++ [10] ++ B "endobj".
Proof.
  cbn zeta. do 3 eexists. split; [vm_compute; reflexivity|]. split; [repeat (constructor; [cbn; lia|]); constructor|].
  split; [cbn; repeat (constructor; [cbn; lia|]); constructor|]. split.
  { intros n d s e fl _ [N C] G. destruct (Z.to_nat n) as [|[|[|[|[|k]]]]]; cbn in C; inversion C; subst; try discriminate. destruct k; discriminate. }
  split; [|reflexivity].
  intros c c' e' I1 I2 M [_ C]. cbn in I1, I2. destruct I1 as [<-|[<-|[<-|[<-|[]]]]]; try (cbn in M; discriminate).
  destruct I2 as [<-|[<-|[<-|[<-|[]]]]]; cbn in C; inversion C; cbn; congruence.
Qed.

(* ---------------- C20 ---------------- *)
(* full statement: every entry line is 20 bytes long.  It fails for every entry: *)
Theorem C20_entry_size_refuted : forall elems d nf txt,
  format_xref_table elems (PDict d) nf = Ok txt -> Forall (printable_fields nf) elems ->
  exists g tr, serialize (PDict d) = Ok tr /\
    txt = B "xref" ++ [10] ++ flat_map (fun s => dec (fst s) ++ [32] ++ dec (Z.of_nat (length (snd s))) ++ [10] ++ concat (snd s)) g
          ++ B "trailer" ++ [10] ++ tr ++ [10] /\
    length (flat_map snd g) = length elems /\ Forall (fun l => length l = 19%nat) (flat_map snd g).
Proof. exact table_pieces. Qed.
Print Assumptions C20_entry_size_refuted.
Example C20_case : exists txt, let e := mk_xe false 1 0 (Some 15) None in
  format_xref_table [e] (PDict []) [] = Ok txt /\ printable_fields [] e /\
  skipn 9 txt = B "0000000015 00000 n" ++ [10] ++ B "trailer" ++ [10] ++ B "<< >>" ++ [10].
Proof.
  eexists. cbn zeta. split; [vm_compute; reflexivity|]. split; [|reflexivity].
  unfold printable_fields. cbn. split; [intros c E; inversion E; lia|lia].
Qed.

(* ---------------- C22 ---------------- *)
Theorem C22_single : forall b s l, b <> [] -> - blen b <= s < blen b -> -1 <= l ->
  let p := Z.to_nat (if s <? 0 then s + blen b else s) in
  exists r, run_prov (PvSingle b) (Some s) l = Ok r /\
    rd_bytes r = file_bytes b p l /\ rd_count r = blen (file_bytes b p l) /\
    exists i n, r = RBuf b i n /\ i = Z.of_nat p.
Proof. exact single_contract. Qed.
Print Assumptions C22_single.
Theorem C22_length : forall b, bdata_length (PvSingle b) = Ok (blen b).
Proof. exact single_length. Qed.
Print Assumptions C22_length.
Theorem C22_all : forall b, b <> [] -> bdata_all (PvSingle b) = Ok (Some b).
Proof. exact single_all. Qed.
Print Assumptions C22_all.
Example C22_case : run_prov (PvSingle (B "abcdef")) (Some (-2)) 5 = Ok (RBuf (B "abcdef") 4 2).
Proof. reflexivity. Qed.

(* ---------------- C23 ---------------- *)
(* full statement: the caller reads the same bytes in both modes.  It fails: *)
Theorem C23_continuous_refuted : forall b s l, 0 < s < blen b -> l = -1 \/ 1 <= l ->
  exists r r', run_prov (PvCont b) (Some s) l = Ok r /\ run_prov (PvSingle b) (Some s) l = Ok r' /\
    rd_count r = rd_count r' /\ (length (rd_bytes r) < length (rd_bytes r'))%nat.
Proof. exact cont_short. Qed.
Print Assumptions C23_continuous_refuted.
Theorem C23_at_zero_partial : forall b l, b <> [] -> -1 <= l ->
  exists r r', run_prov (PvCont b) (Some 0) l = Ok r /\ run_prov (PvSingle b) (Some 0) l = Ok r' /\
    rd_bytes r = rd_bytes r' /\ rd_count r = rd_count r'.
Proof. exact cont_at_zero. Qed.
Print Assumptions C23_at_zero_partial.
Theorem C23_view_partial : forall b s l, b <> [] -> - blen b <= s < blen b -> -1 <= l ->
  let p := Z.to_nat (if s <? 0 then s + blen b else s) in
  exists r, run_prov (PvCont b) (Some s) l = Ok r /\
    rd_bytes r = skipn p (file_bytes b p l) /\ rd_count r = blen (file_bytes b p l).
Proof. exact cont_view. Qed.
Print Assumptions C23_view_partial.
Example C23_case : run_prov (PvCont (B "abcdef")) (Some 2) (-1) = Ok (RBuf (B "cdef") 2 4) /\
  rd_bytes (RBuf (B "cdef") 2 4) = B "ef".
Proof. split; reflexivity. Qed.

(* ---------------- C24 ---------------- *)
Theorem C24_composite : forall f base cut ups, base_on f base -> (cut <= length f)%nat ->
  (forall s l, (s < cut)%nat -> -1 <= l ->
     exists r, run_prov (stack base cut ups) (Some (Z.of_nat s)) l = Ok r /\
       firstn (cut - s) (rd_bytes r) = file_bytes (firstn cut f) s l) /\
  (forall before u after o l, ups = before ++ u :: after -> (0 < o < length u)%nat -> -1 <= l ->
     exists r, run_prov (stack base cut ups) (Some (Z.of_nat (cut + length (concat before) + o))) l = Ok r /\
       rd_bytes r = file_bytes u o l) /\
  (ups <> [] -> bdata_length (stack base cut ups) = Ok (blen (firstn cut f ++ concat ups))).
Proof. exact stack_contract. Qed.
Print Assumptions C24_composite.
Example C24_case : let p := stack (PvSingle (B "abcdef")) 4 [B "0123"; B "XYZ"] in
  run_prov p (Some 5) 2 = Ok (RBuf (B "0123") 1 2) /\ run_prov p (Some 9) (-1) = Ok (RBuf (B "XYZ") 1 2) /\
  bdata_length p = Ok 11.
Proof. repeat split. Qed.

(* ---------------- C50 ---------------- *)
(* full statement: the scan of every file ends.  It does not on a closing bracket where a
   region should begin: *)
Theorem C50_bracket_diverges {ZL : Zlib} : forall fuel t len i,
  (i < length t)%nat -> Z.of_nat i < len -> nth i t 0 = 93 -> map_loop fuel t len i = Loop.
Proof. exact map_loop_stuck. Qed.
Print Assumptions C50_bracket_diverges.
Theorem C50_tiling {ZL : Zlib} : forall f m, f <> [] -> file_object_map (PvSingle f) = Ok m ->
  exists j, tiling f 0 (regions m) j /\ (j = length f \/ ((j < length f)%nat /\ parse_region f j = Ok None)).
Proof. exact object_map_tiles. Qed.
Print Assumptions C50_tiling.
Example C50_case : exists m, @file_object_map store_codec
    (PvSingle (B "%PDF-1.4" ++ [10] ++ B "1 0 obj" ++ [10] ++ B "<< /A [ 1 2 ] >>" ++ [10] ++ B "endobj" ++ [10])) = Ok m /\
  map (fun r => (reg_beg r, reg_end r)) (regions m) = [(Some 0, 8); (Some 8, 9); (Some 9, 40); (Some 40, 41)]%nat.
Proof. eexists. split; vm_compute; reflexivity. Qed.
Example C50_bracket_case : @file_object_map store_codec (PvSingle (B "%PDF-1.4" ++ [10] ++ B "] 1 0 obj")) = Loop.
Proof. reflexivity. Qed.

(* ---------------- C51 ---------------- *)
Theorem C51_dangling : forall m seq ret, check_index_targets m seq = Ok ret ->
  Forall trailer_first seq -> NoDup (map section_pos seq) ->
  (forall p er, In (p, er) ret -> In p (map section_pos seq)) /\
  forall x, In x seq -> exists er, In (section_pos x, er) ret /\
    forall k, In k er <-> (exists e, In e x /\ 0 < n_num e /\ entry_at e k) /\ ~ (exists y, In y m /\ object_at y k).
Proof. exact dangling_reported. Qed.
Print Assumptions C51_dangling.
Example C51_case :
  let m := [ItReg (RInd (mk_ind (Some 9%nat) 40 1 0 PNone)) []] in
  let seq := [[with_xt (Some 60) (ient0 0 0); with_pos (Some (AInt 9)) (ient0 1 0); with_pos (Some (AInt 12)) (ient0 2 0)]] in
  check_index_targets m seq = Ok [(Some 60, [KDir 2 0 (AInt 12)])] /\ Forall trailer_first seq.
Proof.
  split; [reflexivity|]. constructor; [|constructor]. do 2 eexists. split; [reflexivity|]. split; [reflexivity|].
  repeat (constructor; [cbn; lia|]). constructor.
Qed.

(* ---------------- C52 ---------------- *)
Theorem C52_unindexed : forall m seq ret, check_not_indexed_objects m seq = Ok ret ->
  forall k, In k ret <-> (exists x, In x m /\ object_at x k) /\
                         ~ (exists s e, In s seq /\ In e s /\ 0 < n_num e /\ entry_at e k).
Proof. exact unindexed_reported. Qed.
Print Assumptions C52_unindexed.
Example C52_case :
  let m := [ItReg (RInd (mk_ind (Some 9%nat) 40 1 0 PNone)) []; ItReg (RInd (mk_ind (Some 45%nat) 50 2 0 PNone)) []] in
  let seq := [[with_xt (Some 60) (ient0 0 0); with_pos (Some (AInt 9)) (ient0 1 0); with_pos (Some (AInt 12)) (ient0 2 0)]] in
  check_not_indexed_objects m seq = Ok [KDir 2 0 (AInt 45)].
Proof. reflexivity. Qed.

(* ---------------- C53 ---------------- *)
Theorem C53_lines : forall b start stop, b <> [] -> Forall isbyte b -> blen b < 10 ^ 10 ->
  0 <= start < blen b -> start <= stop ->
  let e := Z.min stop (blen b) in
  let k0 := Z.to_nat (start / 10) in
  exists lines, hexdump (PvSingle b) (Some start) (Some stop) = Ok (concat lines) /\
    length lines = (Z.to_nat ((e + 9) / 10) - k0)%nat /\
    (forall j l, nth_error lines j = Some l -> shows b (k0 + j) l).
Proof. exact hexdump_lines. Qed.
Print Assumptions C53_lines.
Theorem C53_whole : forall b, b <> [] -> Forall isbyte b -> blen b < 10 ^ 10 ->
  exists lines, hexdump (PvSingle b) None None = Ok (concat lines) /\
    (forall j l, nth_error lines j = Some l -> shows b j l) /\
    concat (map (fun j => chunk b j) (seq 0 (length lines))) = b.
Proof. exact hexdump_all. Qed.
Print Assumptions C53_whole.
Example C53_case : hexdump (PvSingle (B "hello" ++ [0; 255])) None None
  = Ok (B "0000000000  68 65 6c 6c 6f 00 ff           |hello..|" ++ [10]).
Proof. reflexivity. Qed.

(* ---------------- C57 ---------------- *)
(* full statement: build_xref_sequence returns for every file.  A section that points to
   itself is read for ever: *)
Theorem C57_cycle_refuted : exists f, Forall isbyte f /\
  forall fuel, @build_xref_sequence store_codec fuel (PvSingle f) = Loop.
Proof.
  exists (B "%PDF-1.4" ++ [10] ++ B "xref" ++ [10] ++ B "0 1" ++ [10] ++ B "0000000000 65535 f" ++ [10] ++ B "trailer" ++ [10]
    ++ B "<< /Size 1 /Prev 9 >>" ++ [10] ++ B "% some padding so that there are more than a hundred bytes" ++ [10] ++ B "startxref" ++ [10] ++ B "9" ++ [10] ++ B "%%EOF" ++ [10]).
  split; [match goal with |- Forall isbyte ?l => let v := eval vm_compute in l in change (Forall isbyte v) end; repeat (constructor; [unfold isbyte; lia|]); constructor|].
  eapply sequence_stuck with (xp := 9) (q := 9).
  1: vm_compute; reflexivity.
  1: vm_compute; reflexivity.
  1: vm_compute; reflexivity.
  1: vm_compute; reflexivity.
  1: vm_compute; reflexivity.
  1: vm_compute; reflexivity.
  eapply self_loop; cycle 3; [vm_compute; reflexivity|lia|vm_compute; reflexivity|vm_compute; reflexivity].
Qed.
Print Assumptions C57_cycle_refuted.
Theorem C57_terminates_partial {ZL : Zlib} : forall f (Q : Z -> Prop),
  (forall x, Q x -> section_at f x <> Loop /\ back_pointers (section_at f x) (fun q => Q q /\ q < x)) ->
  last_section f <> Loop -> back_pointers (last_section f) Q ->
  exists n, forall fuel, (n <= fuel)%nat -> build_xref_sequence fuel (PvSingle f) <> Loop.
Proof. exact sequence_terminates. Qed.
Print Assumptions C57_terminates_partial.
Example C57_case : let f := B "%PDF-1.4" ++ [10] ++ B "xref" ++ [10] ++ B "1 1" ++ [10] ++ B "0000000002 00000 n" ++ [10] ++ B "trailer" ++ [10]
    ++ B "<< /Size 2 >>" ++ [10] ++ B "startxref" ++ [10] ++ B "9" ++ [10] ++ B "%%EOF" ++ [10] ++
    B "xref" ++ [10] ++ B "1 1" ++ [10] ++ B "0000000003 00000 n" ++ [10] ++ B "trailer" ++ [10]
    ++ B "<< /Size 2 /Prev 9 >>" ++ [10] ++ B "startxref" ++ [10] ++ B "77" ++ [10] ++ B "%%EOF" ++ [10] in
  (forall x, x = 9 -> @section_at store_codec f x <> Loop /\ back_pointers (@section_at store_codec f x) (fun q => q = 9 /\ q < x)) /\
  (exists r, @last_section store_codec f = Ok r) /\ back_pointers (@last_section store_codec f) (fun q => q = 9) /\
  exists seq nxt nb, @build_xref_sequence store_codec 3 (PvSingle f) = Ok (seq, nxt, nb) /\ length seq = 2%nat.
Proof.
  cbn zeta. split; [|split; [|split]].
  - intros x ->. match goal with |- ?r <> _ /\ _ => let v := eval vm_compute in r in change r with v end.
    split; [discriminate|]. intros xi d t k q E K I. inversion E; subst d. destruct K as [->| ->]; vm_compute in I; inversion I; auto.
  - eexists. vm_compute. reflexivity.
  - match goal with |- back_pointers ?r _ => let v := eval vm_compute in r in change r with v end.
    intros xi d t k q E K I. inversion E; subst d. destruct K as [->| ->]; vm_compute in I; inversion I; auto.
  - do 3 eexists. split; vm_compute; reflexivity.
Qed.
Theorem C57_fuel_irrelevant {ZL : Zlib} : forall f p t prev stm r,
  xref_chain f p t prev stm = Ok r -> xref_chain (S f) p t prev stm = Ok r.
Proof. exact chain_mono. Qed.
Print Assumptions C57_fuel_irrelevant.

(* ---------------- C58 ---------------- *)
Theorem C58_index_rows : forall chrono nxt nb idx, 0 <= nb -> increasing 0 (rev chrono) ->
  Forall (Forall (fun e => n_next e = None)) chrono ->
  Forall (fun s => Forall (fun o => ok_num nb (n_num o)) (tl s)) chrono ->
  build_index chrono nxt nb = Ok idx ->
  length idx = length chrono /\
  exists raw, length raw = length chrono /\
    forall k row sec, nth_error idx k = Some row -> nth_error (rev chrono) k = Some sec ->
      length row = Z.to_nat (nb + 2) /\
      (exists t es c, sec = t :: es /\ nth_error row 0 = Some c /\
         completed raw nxt (SDict (with_dver (Some (Z.of_nat k)) (with_over (Some (Z.of_nat k)) t))) c) /\
      (exists rrow, nth_error raw k = Some rrow /\
         forall n, ok_num nb n -> let c := cell_of (history n 0 [] (firstn (S k) (rev chrono))) in
           pyget rrow n = Ok c /\ exists c', pyget row n = Ok c' /\ completed raw nxt c c').
Proof. exact index_rows. Qed.
Print Assumptions C58_index_rows.
Example C58_case :
  let at_ n p := with_pos (Some (AInt p)) (ient0 n 0) in
  let eof p := with_pos (Some (AInt p)) (ient0 (-1) (-1)) in
  let chrono := [[at_ 0 300; at_ 1 200; eof 400]; [at_ 0 100; at_ 1 10; at_ 2 50; eof 150]] in
  let nxt := [(10, 50); (50, 100); (100, 150); (150, 200); (200, 300); (300, 400); (400, 410)] in
  increasing 0 (rev chrono) /\ Forall (fun s => Forall (fun o => ok_num 2 (n_num o)) (tl s)) chrono /\
  exists idx, build_index chrono nxt 2 = Ok idx /\
    map (map (fun c => match c with SDict e => (n_pos e, n_next e, n_over e, n_dver e) | _ => (None, None, None, None) end)) idx
    = let c p x o v := (Some (AInt p), Some x, Some o, Some v) in
      [[c 100 150 0 0; c 10 50 0 0; c 50 100 0 0; c 150 200 0 0]; [c 300 400 1 1; c 200 300 1 1; c 50 100 0 0; c 400 410 1 1]].
Proof.
  cbn zeta. split; [|split].
  - cbn. do 3 eexists. do 3 (split; [reflexivity|]). split; [lia|]. do 3 eexists. do 3 (split; [reflexivity|]). split; [lia|exact Logic.I].
  - repeat (constructor; [cbn [tl]; repeat (constructor; [unfold ok_num; cbn; lia|]); constructor|]). constructor.
  - eexists. split; vm_compute; reflexivity.
Qed.

(* ---------------- C59 ---------------- *)
Theorem C59_indirect_roundtrip {ZL : Zlib} : forall num gen o, storable o ->
  exists txt o', serialize_fragment num gen o = Ok txt /\ peq o o' /\
  forall pre post, parse_indirect_obj (pre ++ txt ++ post) (length pre)
    = Ok (mk_ind (Some (length pre)) (length pre + length txt - 1) num gen o').
Proof. exact indirect_roundtrip. Qed.
Print Assumptions C59_indirect_roundtrip.
Example C59_case : exists txt, let o := PStream [(B "/K", PRef 0 2)] (Some (B "q 1 0 0 1 3 3 cm Q")) (Some (B "q 1 0 0 1 3 3 cm Q")) in
  serialize_fragment 4 0 o = Ok txt /\ @storable store_codec o /\
  @parse_indirect_obj store_codec (B "% x" ++ [10] ++ txt) 4 = Ok (mk_ind (Some 4%nat) 69 4 0 o).
Proof.
  eexists. cbn zeta. split; [vm_compute; reflexivity|]. split.
  - apply st_stream; try discriminate; [Props_Objects.wfb| |reflexivity].
    intros (a & b & E). assert (N : In 101 (B "q 1 0 0 1 3 3 cm Q")) by (rewrite E; apply in_or_app; right; left; reflexivity).
    vm_compute in N. intuition discriminate.
  - vm_compute. reflexivity.
Qed.

(* ---------------- C60 ---------------- *)
Theorem C60_following_position : forall chrono sz nxt nb, finish_seq chrono sz = Ok (nxt, nb) ->
  let seq := flat_map seq_of chrono in
  Forall (fun x => fst x <= sz) seq ->
  (forall a b, zlookup a nxt = Some b <-> (In a (map fst seq) \/ a = sz) /\ least_above (sz :: map fst seq) a b) /\
  (In nb (map snd seq) /\ Forall (fun x => snd x <= nb) seq).
Proof. exact following_position. Qed.
Print Assumptions C60_following_position.
Example C60_case : let at_ n p := with_pos (Some (AInt p)) (ient0 n 0) in
  finish_seq [[at_ 0 300; at_ 1 200]; [at_ 0 100; at_ 1 10; at_ 2 50]] 500
  = Ok ([(10, 50); (50, 100); (100, 200); (200, 300); (300, 500)], 2).
Proof. vm_compute. reflexivity. Qed.
