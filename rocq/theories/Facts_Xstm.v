(* Cross-reference streams: written and read back (C17) *)
From Coq Require Import String ZifyBool ZifyNat.
From Verif Require Import PyBase Model_Filters Model_Objects Model_Filestruct Spec_Objects Spec_Filestruct
  Facts_Base Facts_Token Facts_Obj Facts_Ser Facts_Parse Facts_Top Facts_Stream Facts_Filters Facts_Refs Facts_Prov Facts_Xref Facts_Indirect.

Lemma to_be_inv b n x : to_be b n = Some x -> x = be_digits b n /\ 0 <= n < 256 ^ Z.of_nat b.
Proof.
  unfold to_be. destruct ((0 <=? n) && (n <? 256 ^ Z.of_nat b)) eqn:E; [|discriminate]. intros H. inversion H. split; auto. lia.
Qed.

Lemma shown_be b n : 0 <= n < 256 ^ Z.of_nat b -> shown b n (asciihex (be_digits b n) ++ [32]).
Proof.
  intros R. exists (be_digits b n). split; [apply be_digits_length|]. split; [apply be_digits_byte|].
  split; [|reflexivity]. apply (from_be_digits b n R).
Qed.

Lemma xs_cols_word b p0 f1 f2 rest : length f1 = b -> length f2 = b ->
  xs_cols [1%nat; b; b] ([p0] ++ f1 ++ f2 ++ rest)
  = ([p0; from_be f1; from_be f2], asciihex [p0] ++ [32] ++ asciihex f1 ++ [32] ++ asciihex f2 ++ [32], rest).
Proof.
  intros L1 L2. cbn [xs_cols app firstn skipn].
  rewrite <- L1. rewrite firstn_app_len, skipn_app_len. rewrite L1, <- L2. rewrite firstn_app_len, skipn_app_len.
  reflexivity.
Qed.

Definition indexed_line (x : xsline) (e : xelem) : Prop := xstm_entry x = indexed_entry e.

Lemma xs_step b nf e w n : xref_word b nf e = Ok (w, n) -> n = xe_num e /\
  forall sec rest nums tl, xs_loop [1%nat; b; b] nums rest = Ok tl ->
  exists x, xs_loop [1%nat; b; b] ((xe_num e, sec) :: nums) (w ++ rest) = Ok (x :: tl) /\
    stream_line b nf (sec, e) x /\ indexed_line x e.
Proof.
  unfold xref_word. destruct (xe_free e) eqn:EF.
  - destruct (zlookup (xe_num e) nf) as [nx|] eqn:EZ; [|discriminate]. cbn [of_opt bind].
    destruct (to_be b nx) as [x|] eqn:E1; [|discriminate]. cbn [of_opt bind].
    destruct (to_be b (xe_gen e + 1)) as [y|] eqn:E2; [|discriminate]. cbn [of_opt bind].
    intros E. inversion E; subst. split; auto. apply to_be_inv in E1 as [-> R1]. apply to_be_inv in E2 as [-> R2].
    intros sec rest nums tl HL.
    pose proof (xs_cols_word b 0 (be_digits b nx) (be_digits b (xe_gen e + 1)) rest (be_digits_length _ _) (be_digits_length _ _)) as XC.
    cbn [app] in XC |- *. rewrite <- app_assoc. cbn [xs_loop]. rewrite XC. cbn [Z.eqb orb]. rewrite HL. cbn [bind].
    rewrite !from_be_digits by auto. eexists. split; [reflexivity|]. split.
    + apply (sl_free b nf sec e _ nx (asciihex (be_digits b nx) ++ [32]) (asciihex (be_digits b (xe_gen e + 1)) ++ [32])); auto using shown_be. cbn [xs_ppr]. rewrite <- !app_assoc. reflexivity.
    + unfold indexed_line, xstm_entry, indexed_entry. cbn. rewrite EF. destruct (xe_cnt e), (xe_num e =? 0); reflexivity.
  - destruct (xe_cnt e) as [c|] eqn:EC; [|discriminate]. cbn [of_opt bind].
    destruct (truthy (xe_env e)) eqn:ET.
    + destruct (xe_env e) as [env|] eqn:EE; [|discriminate]. cbn [of_opt bind].
      destruct (to_be b env) as [x|] eqn:E1; [|discriminate]. cbn [of_opt bind].
      destruct (to_be b c) as [y|] eqn:E2; [|discriminate]. cbn [of_opt bind].
      intros E. inversion E; subst. split; auto. apply to_be_inv in E1 as [-> R1]. apply to_be_inv in E2 as [-> R2].
      assert (NZ : env <> 0) by (cbn in ET; lia).
      intros sec rest nums tl HL.
      pose proof (xs_cols_word b 2 (be_digits b env) (be_digits b c) rest (be_digits_length _ _) (be_digits_length _ _)) as XC.
      cbn [app] in XC |- *. rewrite <- app_assoc. cbn [xs_loop]. rewrite XC. cbn [Z.eqb Pos.eqb orb]. rewrite HL. cbn [bind].
      rewrite !from_be_digits by auto. eexists. split; [reflexivity|]. split.
      * apply (sl_env b nf sec e _ env c (asciihex (be_digits b env) ++ [32]) (asciihex (be_digits b c) ++ [32])); auto using shown_be. cbn [xs_ppr]. rewrite <- !app_assoc. reflexivity.
      * unfold indexed_line, xstm_entry, indexed_entry. cbn [xs_num xs_free xs_env xs_off xs_gen]. rewrite EF, EC, EE, ET. cbn [orb]. destruct (xe_num e =? 0); auto. destruct env; [lia| |]; reflexivity.
    + destruct (to_be b c) as [x|] eqn:E1; [|discriminate]. cbn [of_opt bind].
      destruct (to_be b (xe_gen e)) as [y|] eqn:E2; [|discriminate]. cbn [of_opt bind].
      intros E. inversion E; subst. split; auto. apply to_be_inv in E1 as [-> R1]. apply to_be_inv in E2 as [-> R2].
      assert (NZ : xe_env e = None \/ xe_env e = Some 0).
      { destruct (xe_env e) as [z|]; auto. right. f_equal. cbn in ET. lia. }
      intros sec rest nums tl HL.
      pose proof (xs_cols_word b 1 (be_digits b c) (be_digits b (xe_gen e)) rest (be_digits_length _ _) (be_digits_length _ _)) as XC.
      cbn [app] in XC |- *. rewrite <- app_assoc. cbn [xs_loop]. rewrite XC. cbn [Z.eqb Pos.eqb orb]. rewrite HL. cbn [bind].
      rewrite !from_be_digits by auto. eexists. split; [reflexivity|]. split.
      * apply (sl_direct b nf sec e _ c (asciihex (be_digits b c) ++ [32]) (asciihex (be_digits b (xe_gen e)) ++ [32])); auto using shown_be. cbn [xs_ppr]. rewrite <- !app_assoc. reflexivity.
      * unfold indexed_line, xstm_entry, indexed_entry. cbn [xs_num xs_free xs_env xs_off xs_gen truthy]. rewrite EF, EC. cbn [orb]. destruct (xe_num e =? 0); auto. destruct NZ as [-> | ->]; reflexivity.
Qed.

Lemma xs_words b nf ses : forall words, Forall2 (fun e w => xref_word b nf e = Ok w) (map snd ses) words ->
  exists lines, xs_loop [1%nat; b; b] (map (fun se => (xe_num (snd se), fst se)) ses) (flat_map fst words) = Ok lines /\
    Forall2 (stream_line b nf) ses lines /\ Forall2 indexed_line lines (map snd ses) /\
    map snd words = map (fun se => xe_num (snd se)) ses.
Proof.
  induction ses as [|[sec e] ses IH]; intros words F; inversion F as [|? [w n] ? ws E F']; subst.
  - exists []. repeat split; constructor.
  - destruct (IH ws F') as (tl & HL & F2 & F3 & EN). cbn [snd] in E. destruct (xs_step b nf e w n E) as [-> ST].
    destruct (ST sec (flat_map fst ws) _ tl HL) as (x & HX & SL & IL).
    exists (x :: tl). split; [exact HX|]. split; [constructor; auto|]. split; [constructor; auto|]. cbn [map snd]. f_equal. exact EN.
Qed.

Lemma ranked_snd {A} (g : list (Z * list A)) : forall sec, map snd (ranked sec g) = flat_map snd g.
Proof.
  induction g as [|[n es] g IH]; intros sec; auto. cbn [ranked flat_map snd]. rewrite map_app, IH, map_map. cbn [snd].
  rewrite map_id. reflexivity.
Qed.

Lemma ranked_index g : Forall (run_of xe_num) g -> forall sec,
  index_numbers sec (map (fun a => (fst a, Z.of_nat (length (snd a)))) g) = map (fun se => (xe_num (snd se), fst se)) (ranked sec g).
Proof.
  induction 1 as [|[n es] g [NE M] R IH]; intros sec; auto. cbn [map fst snd index_numbers ranked] in *.
  rewrite map_app, IH, map_map, Nat2Z.id. f_equal. cbn [fst snd].
  transitivity (map (fun x => (x, sec)) (map (fun k => n + Z.of_nat k) (seq 0 (length es)))); [rewrite map_map; auto|].
  rewrite <- M, map_map. reflexivity.
Qed.

Lemma group_runs_words {A} (num : A -> Z) l (words : list (bytes * Z)) : map snd words = map num l ->
  map (fun s => (fst s, Z.of_nat (length (snd s)))) (group_runs words)
  = map (fun s => (fst s, Z.of_nat (length (snd s)))) (group_runs (map (fun x => (x, num x)) l)) /\
  map (fun s => length (snd s)) (group_runs words) = map (fun s => length (snd s)) (group_runs (map (fun x => (x, num x)) l)).
Proof.
  revert words. induction l as [|a l IH]; intros words E.
  - destruct words; [split; reflexivity|discriminate].
  - destruct words as [|[w n] words]; [discriminate|]. cbn [map snd] in E. injection E as E1 E2.
    destruct (IH words E2) as [P Q]. cbn [map group_runs].
    destruct (group_runs words) as [|[m xs] g1]; destruct (group_runs (map (fun x => (x, num x)) l)) as [|[m' xs'] g2]; try discriminate.
    + subst. split; reflexivity.
    + cbn [map fst snd] in P, Q. injection P as P1 P2 P3. injection Q as Q1 Q2. subst m'. subst n.
      destruct (num a + 1 =? m); cbn [map fst snd length]; split; f_equal; auto; try lia; f_equal; auto; f_equal; lia.
Qed.

Section WithZlib.
Context {ZL : Zlib}.

Lemma int_list_ints l : int_list (map PInt l) = Ok l.
Proof. induction l as [|z l IH]; auto. cbn [map int_list]. rewrite IH. reflexivity. Qed.

Lemma dget_other k k' v d : k <> k' -> dget k (dset k' v d) = dget k d.
Proof. intros. apply dget_dset_neq; auto. Qed.

(* the dictionary written with the stream *)
Definition xref_entries (trailer : dict) (b : Z) (index : list Z) (len : Z) : dict :=
  dset K_Length (PInt len) (dset K_Index (PList (map PInt index))
    (dset K_W (PList [PInt 1; PInt b; PInt b]) (dset K_Length (PInt (-1)) (dset K_Type (PStr V_XRef) trailer)))).

Lemma format_stream_inv elems trailer nf num txt d1 : format_xref_stream elems trailer nf num = Ok (txt, d1) ->
  exists b words content enc v index,
    xref_width elems = Ok b /\ Forall2 (fun e w => xref_word (Z.to_nat b) nf e = Ok w) elems words /\
    content = flat_map fst words /\ index = index_array (map (fun s => (fst s, Z.of_nat (length (snd s)))) (group_runs words)) /\
    encode_stream content d1 = Ok enc /\ d1 = xref_entries trailer b index (Z.of_nat (length enc) + 1) /\
    serialize (PStream d1 (Some content) (Some enc)) = Ok v /\
    txt = dec num ++ [32] ++ dec 0 ++ [32] ++ W_objkw ++ [10] ++ v ++ [10] ++ W_endobj ++ [10].
Proof.
  unfold format_xref_stream. destruct (xref_width elems) as [b| |]; try discriminate. cbn [bind].
  destruct (map_res (xref_word (Z.to_nat b) nf) elems) as [words| |] eqn:EM; try discriminate. cbn [bind].
  destruct words as [|w0 words0]; [discriminate|]. remember (w0 :: words0) as words.
  assert (EI : flat_map (fun s => [PInt (fst s); PInt (Z.of_nat (length (snd s)))]) (group_runs words)
      = map PInt (index_array (map (fun s => (fst s, Z.of_nat (length (snd s)))) (group_runs words)))).
  { clear. induction (group_runs words) as [|a g IH]; auto. unfold index_array in *. cbn [flat_map map fst snd app]. rewrite IH. reflexivity. }
  rewrite EI. unfold forge_stream. set (t2 := dset K_Index _ _).
  destruct (encode_stream (flat_map fst words) t2) as [enc| |] eqn:EE; try discriminate. cbn [bind].
  replace (dget K_Length t2) with (Some (PInt (-1))).
  2:{ unfold t2. rewrite !dget_other by discriminate. rewrite dget_dset_eq. reflexivity. }
  cbn [bind]. match goal with |- context [serialize ?x] => destruct (serialize x) as [v| |] eqn:ES end; try discriminate. cbn [bind].
  intros E. injection E as E1 E2. rewrite <- E1, <- E2. exists b, words, (flat_map fst words), enc, v. eexists.
  split; auto. split; [apply map_res_Forall2; auto|]. split; auto. split; [reflexivity|].
  split; [|split; [reflexivity|split; [exact ES|reflexivity]]].
  unfold encode_stream in *. unfold xref_entries. rewrite dget_other by discriminate. exact EE.
Qed.

Lemma rvd_ints d k l : NoDup (map fst d) -> dget k d = Some (PList (map PInt l)) -> dget k (rvd d) = Some (PList (map PInt l)).
Proof.
  intros N E. rewrite dget_rvd by auto. rewrite E. cbn [option_map rv]. f_equal. f_equal. rewrite map_map. reflexivity.
Qed.

Lemma dset_Forall (P : bytes * obj -> Prop) k v d : P (k, v) -> Forall P d -> (forall k' v', beqb k k' = true -> P (k', v') -> P (k', v)) -> Forall P (dset k v d).
Proof.
  intros PK F PR. induction F as [|[k' v'] d H F IH]; cbn [dset]; [constructor; auto|].
  destruct (beqb k k') eqn:E; (constructor; [solve [eauto]|auto]).
Qed.

Lemma wfv_dset G k v d : wfx G (PDict d) -> name_tok k -> wfx G v -> wfx G (PDict (dset k v d)).
Proof.
  intros W N V. inversion W as [| | | | | | | | |? ND F]; subst. constructor; [apply dset_keys; auto|].
  apply dset_Forall; auto. intros k' v' E [A _]. cbn [fst snd] in *. auto.
Qed.

Lemma wfx_ints G l : wfx G (PList (map PInt l)).
Proof. constructor. apply Forall_map. apply Forall_forall. intros. constructor. Qed.

Lemma name_ok s : forallb (fun c => (0 <=? c) && (c <? 128) && negb (inb c [0; 9; 10; 12; 13; 32; 40; 41; 60; 62; 91; 93; 123; 125; 47; 37])) s = true -> name_tok (47 :: s).
Proof.
  intros F. exists s. split; auto. rewrite forallb_forall in F. apply Forall_forall. intros c H. apply F in H.
  cbn in H. unfold regular, white, delim. lia.
Qed.

Lemma words_bytes b nf elems words : Forall2 (fun e w => xref_word b nf e = Ok w) elems words -> Forall isbyte (flat_map fst words).
Proof.
  induction 1 as [|e [w n] elems words E F IH]; [constructor|]. cbn [flat_map fst]. apply Forall_app. split; auto.
  unfold xref_word in E.
  assert (G : forall c x y, c = 0 \/ c = 1 \/ c = 2 -> Forall isbyte ([c] ++ be_digits b x ++ be_digits b y)).
  { intros c x y C. constructor; [unfold isbyte; lia|]. apply Forall_app. split; apply be_digits_byte. }
  destruct (xe_free e).
  - destruct (zlookup (xe_num e) nf) as [nx|]; [|discriminate]. cbn [of_opt bind] in E.
    destruct (to_be b nx) as [x|] eqn:E1; [|discriminate]. cbn [of_opt bind] in E.
    destruct (to_be b (xe_gen e + 1)) as [y|] eqn:E2; [|discriminate]. cbn [of_opt bind] in E.
    inversion E; subst. apply to_be_inv in E1 as [-> _]. apply to_be_inv in E2 as [-> _]. apply (G 0); auto.
  - destruct (xe_cnt e) as [c|]; [|discriminate]. cbn [of_opt bind] in E. destruct (truthy (xe_env e)).
    + destruct (xe_env e) as [env|]; [|discriminate]. cbn [of_opt bind] in E.
      destruct (to_be b env) as [x|] eqn:E1; [|discriminate]. cbn [of_opt bind] in E.
      destruct (to_be b c) as [y|] eqn:E2; [|discriminate]. cbn [of_opt bind] in E.
      inversion E; subst. apply to_be_inv in E1 as [-> _]. apply to_be_inv in E2 as [-> _]. apply (G 2); auto.
    + destruct (to_be b c) as [x|] eqn:E1; [|discriminate]. cbn [of_opt bind] in E.
      destruct (to_be b (xe_gen e)) as [y|] eqn:E2; [|discriminate]. cbn [of_opt bind] in E.
      inversion E; subst. apply to_be_inv in E1 as [-> _]. apply to_be_inv in E2 as [-> _]. apply (G 1); auto.
Qed.

Definition zlib_ok : Prop := forall b, Forall isbyte b -> z_decompress (z_compress b) = Some b.
(* no filter, or one supported filter without parameters *)
Definition plain_filter (d : dict) : Prop :=
  dget K_Filter d = None \/ exists n, single_filter d n /\ (n = F_Flate \/ n = F_Hex \/ n = F_A85).

Lemma plain_decode d c e : zlib_ok -> plain_filter d -> Forall isbyte c -> encode_stream c d = Ok e -> decode_stream (Some e) d = Ok (Some c).
Proof.
  intros Z [F|(n & F & N)] Bc E.
  - destruct (nofilter_roundtrip d c F) as [E1 D]. rewrite E in E1. injection E1 as ->. exact D.
  - destruct (filter_roundtrip d n c Z Bc F N) as (e' & E1 & D). rewrite E in E1. injection E1 as ->. exact D.
Qed.

Lemma plain_notdict d : plain_filter d -> forall x, dget K_Filter d <> Some (PDict x).
Proof. intros [F|(n & [[F|F] _] & _)] x; congruence. Qed.

Definition K_own (k : bytes) : Prop := k = K_Type \/ k = K_Length \/ k = K_W \/ k = K_Index.

Lemma xref_entries_get trailer b index len k : dget k (xref_entries trailer b index len) =
  if beqb k K_Length then Some (PInt len)
  else if beqb k K_Index then Some (PList (map PInt index))
  else if beqb k K_W then Some (PList (map PInt [1; b; b]))
  else if beqb k K_Type then Some (PStr V_XRef) else dget k trailer.
Proof.
  unfold xref_entries. rewrite !dget_dset. destruct (beqb k K_Length), (beqb k K_Index), (beqb k K_W), (beqb k K_Type); reflexivity.
Qed.

Lemma same_index {A} (num : A -> Z) l words : map snd words = map num l ->
  index_array (map (fun s : Z * list bytes => (fst s, Z.of_nat (length (snd s)))) (group_runs words))
  = index_array (map (fun s => (fst s, Z.of_nat (length (snd s)))) (group_runs (map (fun x => (x, num x)) l))).
Proof. intros E. destruct (group_runs_words num l words E) as [-> _]. reflexivity. Qed.

Lemma word_num b nf e w n : xref_word b nf e = Ok (w, n) -> n = xe_num e.
Proof. intros E. apply (xs_step b nf e w n) in E as [-> _]. reflexivity. Qed.

Theorem xstream_written elems trailer nf num txt d1 : zlib_ok ->
  format_xref_stream elems trailer nf num = Ok (txt, d1) -> wfv (PDict trailer) -> plain_filter trailer ->
  exists g b content enc d' lines v,
    maximal_runs xe_num elems g /\
    (forall k, ~ K_own k -> dget k d1 = dget k trailer) /\ dget K_Type d1 = Some (PStr V_XRef) /\
    peq (PDict d1) (PDict d') /\
    encode_stream content d1 = Ok enc /\
    d' = rvd d1 /\ wfv (PDict d1) /\ plain_filter d1 /\ decode_stream (Some enc) d1 = Ok (Some content) /\ dget K_Length d1 = Some (PInt (Z.of_nat (length enc) + 1)) /\
    serialize (PStream d1 (Some content) (Some enc)) = Ok v /\ txt = dec num ++ [32] ++ dec 0 ++ [32] ++ W_objkw ++ [10] ++ v ++ [10] ++ W_endobj ++ [10] /\
    parse_xref_stream_raw d' (Some content) = Ok lines /\
    Forall2 (stream_line b nf) (ranked 0 g) lines /\
    (enc <> [] -> ~ occurs W_endstream enc -> last enc 0 <> 13 -> forall pre post,
      parse_indirect_obj (pre ++ txt ++ post) (length pre)
      = Ok (mk_ind (Some (length pre)) (length pre + length txt - 1) num 0 (PStream d' (Some content) (Some enc))) /\
      (* as a section of a file *)
      forall p q last startx post0 n0 n1,
        read_at p q (last - q) = Ok (pre ++ txt ++ post0, length pre, n0) ->
        read_at p q (startx - q) = Ok (pre ++ txt ++ post, length pre, n1) ->
        read_section p q last startx
          = Ok (mk_ient 0 0 None None (Some (AInt q)) None None None false None (Some q) (Some num) None false None
                :: flat_map indexed_entry elems, d', pre ++ txt ++ post)).
Proof.
  intros ZOK FX W PF. destruct (format_stream_inv _ _ _ _ _ _ FX) as (b & words & content & enc & v & index & WB & F2 & EC & EI & EE & ED & ES & ET).
  set (g := group_runs (map (fun x => (x, xe_num x)) elems)).
  pose proof (group_runs_maximal xe_num elems) as MX. fold g in MX. destruct MX as (EL & RU & GA).
  assert (EN : map snd words = map xe_num elems).
  { clear -F2. induction F2 as [|e [w n] elems words E F IH]; auto. cbn [map snd]. f_equal; auto. eapply word_num; eauto. }
  rewrite (same_index xe_num elems words EN) in EI. fold g in EI.
  assert (GET : forall k, dget k d1 = if beqb k K_Length then Some (PInt (Z.of_nat (length enc) + 1))
     else if beqb k K_Index then Some (PList (map PInt index))
     else if beqb k K_W then Some (PList (map PInt [1; b; b]))
     else if beqb k K_Type then Some (PStr V_XRef) else dget k trailer).
  { intros k. rewrite ED. apply xref_entries_get. }
  assert (WD : wfv (PDict d1)).
  { rewrite ED. unfold xref_entries. apply wfv_dset; [|apply name_ok; reflexivity|constructor].
    apply wfv_dset; [|apply name_ok; reflexivity|apply wfx_ints].
    apply wfv_dset; [|apply name_ok; reflexivity|apply (wfx_ints _ [1; b; b])].
    apply wfv_dset; [|apply name_ok; reflexivity|constructor].
    apply wfv_dset; [auto|apply name_ok; reflexivity|]. apply wf_name. apply name_ok; reflexivity. }
  assert (ND : NoDup (map fst d1)) by (inversion WD; auto).
  assert (PF1 : plain_filter d1).
  { unfold plain_filter, single_filter. rewrite !GET. cbn [beqb]. exact PF. }
  assert (DE : decode_stream (Some enc) d1 = Ok (Some content)).
  { apply plain_decode; auto. rewrite EC. eapply words_bytes; eauto. }
  rewrite EL, <- (ranked_snd g 0) in F2.
  destruct (xs_words _ _ _ _ F2) as (lines & XL & SL & IL & _).
  rewrite <- ranked_index in XL by auto. rewrite <- EC in XL.
  assert (B0 : 0 <= b).
  { unfold xref_width in WB. destruct (max_counter elems) as [m|]; [|discriminate]. cbn [of_opt bind] in WB.
    destruct (m + 1 <=? 0) eqn:EM; [discriminate|]. inversion WB.
    assert (0 <= Z.log2 (m + 1)) by apply Z.log2_nonneg. lia. }
  assert (PR : parse_xref_stream_raw (rvd d1) (Some content) = Ok lines).
  { unfold parse_xref_stream_raw. rewrite (rvd_ints d1 K_W [1; b; b] ND) by (rewrite GET; reflexivity).
    cbn [of_opt bind]. rewrite int_list_ints. cbn [bind].
    rewrite (rvd_ints d1 K_Index index ND) by (rewrite GET; reflexivity).
    rewrite int_list_ints. cbn [bind]. unfold expand_xref_index. rewrite EI, expand_ok.
    - cbn [bind of_opt forallb map]. replace ((0 <=? 1) && ((0 <=? b) && ((0 <=? b) && true))) with true by lia.
      exact XL.
    - apply Forall_map. eapply Forall_impl; [|exact RU]. intros [n es] [NE _]. cbn [fst snd] in *. destruct es; [congruence|]. cbn [length]. lia. }
  exists g, (Z.to_nat b), content, enc, (rvd d1), lines, v.
  split; [split; auto|]. split.
  { intros k NK. rewrite GET.
    assert (Q : forall x, K_own x -> beqb k x = false).
    { intros x KX. destruct (beqb k x) eqn:EQ; auto. apply beqb_eq in EQ. subst x. contradiction. }
    rewrite !Q by (unfold K_own; auto). reflexivity. }
  split; [rewrite GET; reflexivity|]. split; [apply (wfv_peq (PDict d1)); auto|]. split; [auto|]. split; [reflexivity|]. split; [auto|]. split; [auto|]. split; [auto|]. split; [rewrite GET; reflexivity|]. split; [auto|]. split; [auto|]. split; auto. split; auto.
  intros NE NO NL pre post.
  destruct (valtxt_stream d1 (Some content) enc WD NE NO NL (plain_notdict d1 PF1) DE) as (v' & VT).
  assert (EV : v' = v). { destruct VT as (E & _). pose proof (eq_trans (eq_sym E) ES) as E'. injection E'; auto. } subst v'.
  split. { apply (fragment_read num 0 _ _ v txt pre post VT). exact ET. }
  intros p q last startx post0 n0 n1 R0 R1.
  destruct (object_tokens num 0 _ _ v pre post VT) as (T1 & T2 & T3 & P & (j & k & T4 & C) & T5).
  unfold read_section. rewrite R0. cbn [bind].
  replace (beqb (sub (pre ++ txt ++ post0) (length pre) (length pre + 4)) W_xref) with false.
  2:{ symmetry. apply not_true_is_false. intros E. apply beqb_eq in E.
      assert (H : forall c r, txt = c :: r -> c <> 120 -> False).
      { intros c r Ec C1. rewrite Ec in E. unfold sub in E. rewrite skipn_app_len in E.
        replace (length pre + 4 - length pre)%nat with 4%nat in E by lia. cbn [app firstn] in E. inversion E. lia. }
      rewrite ET in H. unfold dec in H at 1. destruct (num <? 0) eqn:N0.
      - eapply H; [reflexivity|lia].
      - destruct (dig_split (dec_nat num)) as (dg & r & Eg & Hd); [apply dec_nat_dig; lia|apply dec_nat_nonnil|].
        rewrite Eg in H. eapply H; [reflexivity|]. lia. }
  rewrite R1. cbn [bind].
  replace (pre ++ txt ++ post) with (pre ++ dec num ++ [32] ++ dec 0 ++ [32] ++ W_objkw ++ [10] ++ v ++ [10] ++ W_endobj ++ [10] ++ post) in *
    by (rewrite ET, <- !app_assoc; reflexivity).
  rewrite T1, T2, T3, T4, P.
  rewrite (top_parse (fun _ => True) (PInt num) (dec num) pre ([32] ++ dec 0 ++ [32] ++ W_objkw ++ [10] ++ v ++ [10] ++ W_endobj ++ [10] ++ post)).
  - cbn [rv bind]. unfold parse_xref_stream. rewrite PR. cbn [bind]. f_equal. f_equal. f_equal. f_equal.
    rewrite EL, <- (ranked_snd g 0). clear -IL. induction IL as [|x e xs es H IL IH]; auto. cbn [flat_map]. rewrite IH. f_equal. exact H.
  - constructor; [constructor|discriminate].
  - reflexivity.
  - right. apply sep_cons. unfold white. lia.
  - apply follows_not_stream. exists [32], (dec 0 ++ [32] ++ W_objkw ++ [10] ++ v ++ [10] ++ W_endobj ++ [10] ++ post).
    split; auto. split; [discriminate|]. split; [constructor; [unfold white; lia|constructor]|].
    right. exists 48. eexists. split; [reflexivity|]. split; [right; unfold decdigit; lia|]. intros [r Q]. discriminate.
Qed.

Theorem xstream_roundtrip elems trailer nf num txt d1 : zlib_ok ->
  format_xref_stream elems trailer nf num = Ok (txt, d1) -> wfv (PDict trailer) -> plain_filter trailer ->
  exists g b content enc d' lines,
    maximal_runs xe_num elems g /\
    (forall k, ~ K_own k -> dget k d1 = dget k trailer) /\ dget K_Type d1 = Some (PStr V_XRef) /\
    peq (PDict d1) (PDict d') /\
    encode_stream content d1 = Ok enc /\
    parse_xref_stream_raw d' (Some content) = Ok lines /\
    Forall2 (stream_line b nf) (ranked 0 g) lines /\
    (enc <> [] -> ~ occurs W_endstream enc -> last enc 0 <> 13 -> forall pre post,
      parse_indirect_obj (pre ++ txt ++ post) (length pre)
      = Ok (mk_ind (Some (length pre)) (length pre + length txt - 1) num 0 (PStream d' (Some content) (Some enc))) /\
      (* as a section of a file *)
      forall p q last startx post0 n0 n1,
        read_at p q (last - q) = Ok (pre ++ txt ++ post0, length pre, n0) ->
        read_at p q (startx - q) = Ok (pre ++ txt ++ post, length pre, n1) ->
        read_section p q last startx
          = Ok (mk_ient 0 0 None None (Some (AInt q)) None None None false None (Some q) (Some num) None false None
                :: flat_map indexed_entry elems, d', pre ++ txt ++ post)).
Proof.
  intros ZOK FX W PF. destruct (xstream_written _ _ _ _ _ _ ZOK FX W PF) as (g & b & c & enc & d' & lines & v & A1 & A2 & A3 & A4 & A5 & _ & _ & _ & _ & _ & _ & _ & A6 & A7 & A8).
  exists g, b, c, enc, d', lines. auto 10.
Qed.

End WithZlib.
