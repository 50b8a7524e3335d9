(* Xref sections: when writing succeeds, length of the lines (C16, C17, C20) *)
From Coq Require Import String ZifyBool ZifyNat.
From Verif Require Import PyBase Model_Filters Model_Objects Model_Filestruct Spec_Objects Spec_Filestruct
  Facts_Base Facts_Token Facts_Obj Facts_Ser Facts_Parse Facts_Top Facts_Stream Facts_Filters Facts_Refs Facts_Prov Spec_Filters
  Facts_Xref Facts_Indirect Facts_Xstm.

Lemma map_res_total {A C} (f : A -> res C) l : Forall (fun x => exists y, f x = Ok y) l -> exists r, map_res f l = Ok r /\ length r = length l.
Proof.
  induction 1 as [|x l (y & E) F (r & IH & L)]; cbn [map_res]; [exists []; auto|]. rewrite E, IH. cbn [bind]. exists (y :: r). cbn. auto.
Qed.

Theorem table_total elems d nf : elems <> [] -> Forall (elem_ok nf) elems -> wfv (PDict d) ->
  exists txt, format_xref_table elems (PDict d) nf = Ok txt.
Proof.
  intros NE F W. unfold format_xref_table.
  destruct (map_res_total (xref_line nf) elems) as (lines & E & L).
  { eapply Forall_impl; [|exact F]. intros e (_ & _ & H). unfold xref_line. destruct (xe_free e).
    - destruct H as (n & -> & _). cbn [of_opt bind]. eauto.
    - destruct H as (c & -> & _). cbn [of_opt bind]. eauto. }
  rewrite E. cbn [bind]. destruct lines as [|l0 lines]; [destruct elems; [congruence|discriminate]|].
  destruct (@wfv_readback store_codec _ (PDict d) W 0) as (w & E1 & _). unfold serialize. rewrite E1. cbn [bind]. eauto.
Qed.

Lemma entry_size (nf : list (Z * Z)) e line num : xref_line nf e = Ok (line, num) -> printable_fields nf e ->
  length (line ++ [10]) = 19%nat.
Proof.
  unfold xref_line, printable_fields. destruct (xe_free e).
  - destruct (zlookup (xe_num e) nf) as [n|]; [|discriminate]. cbn [of_opt bind]. intros E [H1 H2]. injection E as <- _.
    specialize (H1 n eq_refl). rewrite !app_length, pad0_length by (cbn; lia). cbn [length]. rewrite app_length, pad0_length by (cbn; lia). reflexivity.
  - destruct (xe_cnt e) as [n|]; [|discriminate]. cbn [of_opt bind]. intros E [H1 H2]. injection E as <- _.
    specialize (H1 n eq_refl). rewrite !app_length, pad0_length by (cbn; lia). cbn [length]. rewrite app_length, pad0_length by (cbn; lia). reflexivity.
Qed.

(* C20: the text is made of headers and lines of 19 bytes *)
Theorem table_pieces elems d nf txt : format_xref_table elems (PDict d) nf = Ok txt -> Forall (printable_fields nf) elems ->
  exists g tr, serialize (PDict d) = Ok tr /\
    txt = B "xref" ++ [10] ++ flat_map (fun s => dec (fst s) ++ [32] ++ dec (Z.of_nat (length (snd s))) ++ [10] ++ concat (snd s)) g
          ++ B "trailer" ++ [10] ++ tr ++ [10] /\
    length (flat_map snd g) = length elems /\ Forall (fun l => length l = 19%nat) (flat_map snd g).
Proof.
  unfold format_xref_table. destruct (map_res (xref_line nf) elems) as [lines| |] eqn:EM; try discriminate. cbn [bind].
  destruct lines as [|l0 ls]; [discriminate|]. set (lines := l0 :: ls) in *.
  destruct (serialize (PDict d)) as [tr| |]; try discriminate. cbn [bind]. intros E F. injection E as <-.
  exists (map (fun s => (fst s, map (fun l => l ++ [10]) (snd s))) (group_runs lines)), tr. split; auto.
  assert (FM : flat_map snd (map (fun s => (fst s, map (fun l : bytes => l ++ [10]) (snd s))) (group_runs lines)) = map (fun l => fst l ++ [10]) lines).
  { pose proof (group_runs_maximal snd lines) as (G & _ & _).
    replace (group_runs lines) with (map (fun g : Z * list (bytes * Z) => (fst g, map fst (snd g))) (group_runs (map (fun x => (x, snd x)) lines))).
    2: { rewrite <- group_runs_map. f_equal. clear. induction lines as [|[a b] l IH]; auto. cbn. f_equal. auto. }
    rewrite map_map. cbn [fst snd]. rewrite flat_map_concat_map, map_map. cbn [snd].
    rewrite G at 2. rewrite flat_map_concat_map, concat_map, map_map. f_equal. apply map_ext. intros [n x]. cbn [fst snd]. rewrite map_map. reflexivity. }
  split; [|split].
  - assert (FM2 : flat_map (fun s => dec (fst s) ++ [32] ++ dec (Z.of_nat (length (snd s))) ++ [10] ++ concat (snd s)) (map (fun s => (fst s, map (fun l : bytes => l ++ [10]) (snd s))) (group_runs lines))
       = flat_map sub_text (group_runs lines)).
    { clear. induction (group_runs lines) as [|[n x] g IH]; auto. cbn [map flat_map fst snd]. rewrite IH. f_equal.
      unfold sub_text. cbn [fst snd]. rewrite map_length, flat_map_concat_map. reflexivity. }
    symmetry. exact (f_equal (fun z => B "xref" ++ [10] ++ z ++ B "trailer" ++ [10] ++ tr ++ [10]) FM2).
  - refine (eq_trans (f_equal (@length _) FM) _). rewrite map_length. apply map_res_Forall2 in EM. clear -EM. induction EM; cbn; auto.
  - refine (eq_ind_r (Forall _) _ FM). apply map_res_Forall2 in EM. apply Forall_map. clear -EM F. induction EM as [|e [l n] es lines H F2 IH]; auto.
    inversion F; subst. constructor; auto. cbn [fst]. eapply entry_size; eauto.
Qed.

Section WithZlib.
Context {ZL : Zlib}.

Lemma max_counter_acc l : forall m, (forall e c, In e l -> xe_cnt e = Some c -> c <= m) ->
  forall acc, (acc = Some m \/ (exists e, In e l /\ xe_cnt e = Some m) /\ forall a, acc = Some a -> a <= m) ->
  fold_left (fun m e => match xe_cnt e, m with None, _ => m | Some c, None => Some c | Some c, Some x => Some (Z.max x c) end) l acc = Some m.
Proof.
  induction l as [|e l IH]; intros m MX acc A; cbn [fold_left].
  - destruct A as [A|[(e & [] & _) _]]; auto.
  - apply IH; [intros; eapply MX; eauto; right; auto|].
    destruct A as [->|[(e0 & [->|I] & E) LE]].
    + left. destruct (xe_cnt e) as [c|] eqn:E; auto. specialize (MX e c (or_introl eq_refl) E). f_equal. lia.
    + left. rewrite E. destruct acc as [a|]; auto. specialize (LE a eq_refl). f_equal. lia.
    + right. split; [eauto|]. intros a Q. destruct (xe_cnt e) as [c|] eqn:EC; [|auto].
      specialize (MX e c (or_introl eq_refl) EC). destruct acc as [x|]; inversion Q; subst; auto. specialize (LE x eq_refl). lia.
Qed.

Lemma width_of elems m b : greatest_counter elems m -> 0 <= m -> bytes_for m b -> xref_width elems = Ok (Z.of_nat b).
Proof.
  intros [EX MX] M0 [B1 B2]. unfold xref_width, max_counter. rewrite (max_counter_acc elems m); auto.
  2: { right. split; auto. discriminate. }
  cbn [of_opt bind]. replace (m + 1 <=? 0) with false by lia. f_equal.
  assert (L : 8 * (Z.of_nat b - 1) <= Z.log2 (m + 1) < 8 * Z.of_nat b).
  { change 256 with (2 ^ 8) in B2. rewrite <- !Z.pow_mul_r in B2 by lia. destruct B2. split.
    - apply Z.log2_le_pow2; lia.
    - apply Z.log2_lt_pow2; lia. }
  assert (Z.log2 (m + 1) / 8 = Z.of_nat b - 1) by lia. lia.
Qed.

Theorem stream_total elems trailer nf num m b : greatest_counter elems m -> 0 <= m -> bytes_for m b ->
  Forall (fits b nf) elems -> wfv (PDict trailer) -> plain_filter trailer -> zlib_ok ->
  exists txt d, format_xref_stream elems trailer nf num = Ok (txt, d).
Proof.
  intros GC M0 BF FT W PF ZOK. unfold format_xref_stream. rewrite (width_of _ _ _ GC M0 BF). cbn [bind]. rewrite Nat2Z.id.
  assert (TB : forall n, 0 <= n < 256 ^ Z.of_nat b -> to_be b n = Some (be_digits b n)).
  { intros n H. unfold to_be. replace ((0 <=? n) && (n <? 256 ^ Z.of_nat b)) with true by lia. reflexivity. }
  destruct (map_res_total (xref_word b nf) elems) as (words & EM & L).
  { eapply Forall_impl; [|exact FT]. intros e H. unfold fits in H. unfold xref_word. destruct (xe_free e).
    - destruct H as (n & -> & H1 & H2). cbn [of_opt bind]. rewrite !TB by auto. cbn [of_opt bind]. eauto.
    - destruct H as (c & -> & H1 & H2). cbn [of_opt bind]. destruct (xe_env e) as [env|]; cbn [truthy].
      + destruct (Z.eqb_spec env 0) as [->|NZ]; cbn [negb].
        * rewrite !TB by auto. cbn [of_opt bind]. eauto.
        * assert (0 <= env < 256 ^ Z.of_nat b) by (destruct env; try congruence; auto).
          cbn [of_opt bind]. rewrite !TB by auto. cbn [of_opt bind]. eauto.
      + rewrite !TB by auto. cbn [of_opt bind]. eauto. }
  rewrite EM. cbn [bind]. destruct words as [|w0 ws]; [destruct GC as [(e & I & _) _]; destruct elems; [destruct I|discriminate]|].
  set (words := w0 :: ws) in *.
  set (index := flat_map _ (group_runs words)).
  assert (EI : exists l, index = map PInt l).
  { exists (index_array (map (fun s => (fst s, Z.of_nat (length (snd s)))) (group_runs words))). unfold index. clear.
    induction (group_runs words) as [|a g IH]; auto. unfold index_array in *. cbn [flat_map map fst snd app]. rewrite IH. reflexivity. }
  destruct EI as (il & EI). rewrite EI. clear index EI.
  unfold forge_stream. set (t2 := dset K_Index _ _).
  assert (W2 : wfv (PDict t2)).
  { unfold t2. apply wfv_dset; [|apply name_ok; reflexivity|apply wfx_ints].
    apply wfv_dset; [|apply name_ok; reflexivity|apply (wfx_ints _ [1; Z.of_nat b; Z.of_nat b])].
    apply wfv_dset; [|apply name_ok; reflexivity|constructor].
    apply wfv_dset; [auto|apply name_ok; reflexivity|]. apply wf_name. apply name_ok; reflexivity. }
  assert (G2 : forall k, k = K_Filter \/ k = K_DecodeParms -> dget k t2 = dget k trailer).
  { intros k K. unfold t2. rewrite !dget_other; auto; destruct K as [-> | ->]; discriminate. }
  assert (PF2 : plain_filter t2).
  { unfold plain_filter, single_filter. rewrite !G2 by auto. exact PF. }
  assert (BY : Forall isbyte (flat_map fst words)) by (eapply words_bytes; apply map_res_Forall2; exact EM).
  assert (EN : exists enc, encode_stream (flat_map fst words) t2 = Ok enc).
  { destruct PF2 as [F|(n & F & N)].
    - destruct (nofilter_roundtrip t2 (flat_map fst words) F) as [E _]. eauto.
    - destruct (filter_roundtrip t2 n (flat_map fst words) ZOK BY F N) as (e & E & _). eauto. }
  destruct EN as (enc & EN). rewrite EN. cbn [bind].
  replace (dget K_Length t2) with (Some (PInt (-1))).
  2:{ unfold t2. rewrite !dget_other by discriminate. rewrite dget_dset_eq. reflexivity. }
  set (d3 := dset K_Length _ t2).
  assert (W3 : wfv (PDict d3)) by (apply wfv_dset; [auto|apply name_ok; reflexivity|constructor]).
  assert (SE : exists v, serialize (PStream d3 (Some (flat_map fst words)) (Some enc)) = Ok v).
  { destruct (wfv_readback _ (PDict d3) W3 0) as (w & E1 & _). unfold serialize. rewrite ser_stream. rewrite ser_dict in E1.
    destruct (ser_entries 0 d3) as [x| |]; cbn [bind] in *; try discriminate. eauto. }
  destruct SE as (v & SE). cbn [bind].
  match goal with |- context [serialize ?x] => replace (serialize x) with (Ok v) end. cbn [bind]. eauto.
Qed.

(* a width deduced from offsets alone may be too small for the other fields *)
Theorem stream_overflow elems trailer nf num m b e : greatest_counter elems m -> 0 <= m -> bytes_for m b ->
  In e elems -> xe_free e = true -> 256 ^ Z.of_nat b <= xe_gen e + 1 -> forall r, format_xref_stream elems trailer nf num <> Ok r.
Proof.
  intros GC M0 BF I FR BIG r. unfold format_xref_stream. rewrite (width_of _ _ _ GC M0 BF). cbn [bind]. rewrite Nat2Z.id.
  destruct (map_res (xref_word b nf) elems) as [words| |] eqn:EM; cbn [bind]; try discriminate. exfalso.
  apply map_res_Forall2 in EM. clear -EM I FR BIG. induction EM as [|x w es ws H F IH]; [destruct I|].
  destruct I as [->|I]; auto. unfold xref_word in H. rewrite FR in H. destruct (zlookup (xe_num e) nf); [|discriminate]. cbn [of_opt bind] in H.
  destruct (to_be b z); [|discriminate]. cbn [of_opt bind] in H. unfold to_be in H at 1.
  replace ((0 <=? xe_gen e + 1) && (xe_gen e + 1 <? 256 ^ Z.of_nat b)) with false in H by lia. discriminate.
Qed.

End WithZlib.
