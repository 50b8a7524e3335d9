(* Proofs on documents written with an xref stream and objects inside object streams. *)
From Coq Require Import String Permutation Sorted ZifyBool ZifyNat.
From Verif Require Import PyBase Model_Filters Model_Objects Model_Filestruct Model_Docstruct Model_Api.
From Verif Require Import Spec_Objects Spec_Filestruct Spec_Docstruct Spec_Api Spec_Save Spec_Objstm Spec_Packed.
From Verif Require Import Facts_Squash.
From Verif Require Import Facts_Base Facts_Filters Facts_Token Facts_Parse Facts_Obj Facts_Ser Facts_Top Facts_Stream Facts_Indirect Facts_Xref Facts_Xstm Facts_Index Facts_Revision Facts_Prov Facts_Write Facts_Doc Facts_Commit Facts_Chain Facts_Objstm Facts_Save.

Section WithZlib.
Context {ZL : Zlib}.

(* ---------- the last section of a file ---------- *)
Lemma find_start F pre x : F = pre ++ tail_text x -> (100 <= length F)%nat -> blen F < 10 ^ 10 -> (x < length F)%nat ->
  forall f, xref_chrono f (PvSingle F) =
    let* (xi, tr, t') := read_section (PvSingle F) (Z.of_nat x) (Z.of_nat (length pre)) (Z.of_nat (length pre)) in
    let* s := int_entry K_XRefStm tr in
    let* q := int_entry K_Prev tr in
    let* rest := xref_chain f (PvSingle F) t' q s in
    Ok (close_section xi (dhas K_XRefStm tr) (Z.of_nat (length pre)) (blen F - 6) :: rest).
Proof.
  intros EF L1 L2 XF f.
  set (tl1 := [10] ++ dec (Z.of_nat x) ++ [10] ++ B "%%EOF" ++ [10]).
  assert (E1 : F = pre ++ W_startxref ++ tl1) by (rewrite EF; reflexivity).
  assert (LD : (length (dec (Z.of_nat x)) <= 10)%nat).
  { unfold dec. replace (_ <? 0) with false by lia. apply dec_nat_length_le; [unfold blen in L2; lia|lia]. }
  assert (LT : (length tl1 <= 18)%nat). { unfold tl1. rewrite !app_length. change (length (B "%%EOF")) with 5%nat. cbn [length]. lia. }
  assert (LP : (length F = length pre + 9 + length tl1)%nat) by (rewrite E1, !app_length; change (length W_startxref) with 9%nat; lia).
  unfold xref_chrono. destruct (single_read F (-100) (-1)) as (n & R & _); [intros ->; cbn in L1; lia|unfold blen; lia|lia|].
  cbn [Z.ltb Z.compare] in R. rewrite R. cbn [bind].
  assert (RX : rfind W_startxref F (Z.to_nat (-100 + blen F)) = Some (length pre)).
  { eapply rfind_last; [discriminate|exact E1|unfold blen; lia|]. intros a' b' E'.
    eapply (last_by_head 115 (skipn 1 W_startxref) pre tl1 F E1); [|exact E'].
    intros I. apply in_app_or in I as [I|I]; [cbn in I; lia|]. unfold tl1 in I. apply in_app_or in I as [I|I]; [cbn in I; lia|].
    apply in_app_or in I as [I|I]; [eapply dec_not; [| |exact I]; lia|]. cbn in I. lia. }
  assert (RE : rfind W_EOF F (Z.to_nat (-100 + blen F)) = Some (length F - 6)%nat).
  { assert (E2 : F = (pre ++ W_startxref ++ [10] ++ dec (Z.of_nat x) ++ [10]) ++ W_EOF ++ [10]) by (rewrite E1; unfold tl1; rewrite <- !app_assoc; reflexivity).
    set (a := pre ++ W_startxref ++ [10] ++ dec (Z.of_nat x) ++ [10]) in *.
    assert (LA : (length F = length a + 6)%nat) by (rewrite E2, !app_length; reflexivity).
    replace (length F - 6)%nat with (length a) by lia. eapply rfind_last; [discriminate|exact E2|unfold blen; lia|].
    intros a' b' E'. destruct (Nat.le_gt_cases (length a') (length a)) as [|G]; [auto|]. exfalso.
    rewrite E2 in E'. assert (SK : skipn (length a') (a ++ W_EOF ++ [10]) = W_EOF ++ b') by (rewrite E', skipn_app, skipn_all, Nat.sub_diag; reflexivity).
    rewrite skipn_app, skipn_all2 in SK by lia. cbn [app] in SK.
    destruct (length a' - length a)%nat as [|[|k]] eqn:K; [lia|discriminate SK|]. apply (f_equal (@length Z)) in SK. rewrite skipn_length in SK.
    rewrite !app_length in SK. change (length W_EOF) with 5%nat in SK. cbn [length] in SK. lia. }
  rewrite RX, RE. cbn [znat].
  assert (NT : next_token F (Z.to_nat (Z.of_nat (length pre) + 9))
     = ((length pre + 10)%nat, (length pre + 10 + length (dec (Z.of_nat x)))%nat, Some TInteger)).
  { pose proof (next_token_white (pre ++ W_startxref) [10] (dec (Z.of_nat x)) TInteger ([10] ++ B "%%EOF" ++ [10])
      ltac:(constructor; [unfold white; lia|constructor]) (dec_tok _) (or_intror (sep_cons 10 _ ltac:(unfold white; lia)))) as N.
    rewrite <- !app_assoc in N. replace F with (pre ++ W_startxref ++ [10] ++ dec (Z.of_nat x) ++ [10] ++ B "%%EOF" ++ [10]) by (rewrite E1; reflexivity).
    replace (Z.to_nat (Z.of_nat (length pre) + 9)) with (length (pre ++ W_startxref)) by (rewrite app_length; change (length W_startxref) with 9%nat; lia).
    rewrite N. rewrite !app_length. change (length W_startxref) with 9%nat. cbn [length]. repeat f_equal; lia. }
  rewrite NT. replace (sub F (length pre + 10) (length pre + 10 + length (dec (Z.of_nat x)))) with (dec (Z.of_nat x)).
  2:{ symmetry. replace F with ((pre ++ W_startxref ++ [10]) ++ dec (Z.of_nat x) ++ [10] ++ B "%%EOF" ++ [10]) by (rewrite E1; unfold tl1; rewrite <- !app_assoc; reflexivity).
      apply sub_app_exact; rewrite !app_length; change (length W_startxref) with 9%nat; cbn [length]; lia. }
  assert (PI : py_int 10 (dec (Z.of_nat x)) = Some (Z.of_nat x)).
  { destruct (dec_dig (Z.of_nat x) ltac:(lia)) as [D N]. rewrite py_int_digs by auto. f_equal. unfold dec. replace (_ <? 0) with false by lia. apply dec_nat_val. lia. }
  rewrite PI. cbn [of_opt bind]. replace (Z.of_nat (length F - 6)) with (blen F - 6) by (unfold blen; lia). reflexivity.
Qed.

(* the end of a file whose last section is an xref stream *)
Definition stream_end (x : nat) : bytes := [10] ++ W_endstream ++ [10] ++ B "endobj" ++ [10] ++ tail_text x.

(* the section of an xref stream *)
Definition stream_head (q num : Z) : ient :=
  mk_ient 0 0 None None (Some (AInt q)) None None None false None (Some q) (Some num) None false None.
Lemma dict_text d enc s v : serialize (PStream d s (Some enc)) = Ok v -> enc <> [] -> exists w, v = w ++ enc ++ W_nl_endstream.
Proof.
  unfold serialize. cbn [ser]. intros E N. match type of E with bind ?X _ = _ => destruct X as [b| |] eqn:EB; try discriminate end. cbn [bind] in E.
  destruct enc as [|x c]; [congruence|]. injection E as <-. exists ([60; 60; 32] ++ b ++ [62; 62] ++ W_nl_stream). rewrite <- !app_assoc. reflexivity.
Qed.
Lemma stream_section F pre txt elems t nf num t1 : zlib_ok -> format_xref_stream elems t nf num = Ok (txt, t1) -> wfv (PDict t) -> plain_filter t ->
  dget K_XRefStm t = None -> dget K_Prev t = None ->
  F = (pre ++ txt) ++ tail_text (length pre) -> (100 <= length F)%nat -> blen F < 10 ^ 10 ->
  dget K_Length t1 <> Some (PInt 1) -> (forall a e, F = a ++ e ++ stream_end (length pre) -> dget K_Length t1 = Some (PInt (blen e + 1)) -> clean e) ->
  exists c enc, wfv (PDict t1) /\ (forall k, ~ K_own k -> dget k t1 = dget k t) /\
    (forall f, xref_chrono f (PvSingle F) = Ok [close_section (stream_head (Z.of_nat (length pre)) num :: flat_map indexed_entry elems) false (Z.of_nat (length (pre ++ txt))) (blen F - 6)]) /\
    good F num (Z.of_nat (length pre)) (PStream (rvd t1) (Some c) (Some enc)) /\ plain_filter t1.
Proof.
  intros ZO FX W PF NS NP EF L1 L2 L0 CL.
  destruct (xstream_written _ _ _ _ _ _ ZO FX W PF) as (_ & _ & c & enc & d' & lines & v & _ & KE & KT & PQ & EN & -> & W1 & PF1 & DE & LE & SE & TX & _ & _ & RD).
  assert (NE : enc <> []) by (intros ->; apply L0; rewrite LE; reflexivity).
  destruct (dict_text _ _ _ _ SE NE) as (w & EV).
  destruct (CL (pre ++ dec num ++ [32] ++ dec 0 ++ [32] ++ W_objkw ++ [10] ++ w) enc) as (_ & C1 & C2).
  { rewrite EF, TX, EV. unfold stream_end. rewrite <- !app_assoc. do 9 f_equal. }
  { rewrite LE. reflexivity. }
  specialize (RD NE C1 C2 pre (tail_text (length pre))). rewrite app_assoc, <- EF in RD. destruct RD as (RI & RS).
  exists c, enc. split; [exact W1|]. split; [exact KE|].
  assert (XF : (length pre < length F)%nat). { rewrite EF, !app_length. pose proof (tail_length (length pre)). lia. }
  split; [|split; [|exact PF1]].
  - intro f. rewrite (find_start F (pre ++ txt) (length pre) EF L1 L2 XF f).
    destruct (single_at F (length pre) (Z.of_nat (length (pre ++ txt)) - Z.of_nat (length pre)) XF) as (n & RA); [rewrite app_length; lia|].
    rewrite (RS (PvSingle F) (Z.of_nat (length pre)) (Z.of_nat (length (pre ++ txt))) (Z.of_nat (length (pre ++ txt))) (tail_text (length pre)) n n) by first [exact RA|rewrite app_assoc, <- EF; exact RA].
    cbn [bind]. assert (ND : NoDup (map fst t1)) by (apply wfv_nodup; auto).
    assert (G : forall k, ~ K_own k -> dget k t = None -> dget k (rvd t1) = None). { intros k N G. rewrite dget_rvd, KE, G by auto. reflexivity. }
    unfold int_entry. rewrite (G K_XRefStm), (G K_Prev) by (auto; intros [Q|[Q|[Q|Q]]]; discriminate). cbn [bind].
    unfold dhas. rewrite (G K_XRefStm) by (auto; intros [Q|[Q|[Q|Q]]]; discriminate). destruct f; reflexivity.
  - split; [discriminate|].
    destruct (valtxt_stream t1 (Some c) enc W1 NE C1 C2 (plain_notdict _ PF1) DE) as (v' & VT).
    assert (v' = v) by (destruct VT as (E & _); pose proof (eq_trans (eq_sym E) SE) as Q; injection Q; auto). subst v'.
    exists (PStream t1 (Some c) (Some enc)), v. split; [exact VT|]. exists pre, (tail_text (length pre)). split; [|reflexivity].
    rewrite EF, TX. unfold object_text. rewrite <- !app_assoc. reflexivity.
Qed.

(* ---------- the index of a file with one section ---------- *)
Definition sure (fsz : Z) (es : list ient) (e : ient) : Prop :=
  (n_env e = None /\ exists z, n_pos e = Some (AInt z) /\ 0 <= z < fsz) \/
  (exists env off ee z, n_env e = Some env /\ n_pos e = Some (ATup env off) /\ In ee es /\ n_num ee = env /\ n_env ee = None /\
     n_pos ee = Some (AInt z) /\ 0 <= z < fsz).
Definition fin2 (row : list slot) (nxt : list (Z * Z)) (s : slot) : slot :=
  match s with
  | SDict e =>
      match n_pos e with
      | Some (AInt p) => SDict (with_next (zlookup p nxt) e)
      | Some (ATup env off) =>
          match pyget row env with
          | Ok (SDict ce) => match n_pos ce with
                             | Some (AInt loc) => SDict (with_next (zlookup loc nxt) (with_pos (Some (AFloat loc (off + 1))) e))
                             | _ => s
                             end
          | _ => s
          end
      | _ => s
      end
  | _ => s
  end.
Lemma map_res_map {A C} (f : A -> res C) (g : A -> C) l : (forall x, In x l -> f x = Ok (g x)) -> map_res f l = Ok (map g l).
Proof. induction l as [|x l IH]; intros H; cbn [map_res map]; [reflexivity|]. rewrite H by (left; auto). cbn [bind]. rewrite IH by (intros; apply H; right; auto). reflexivity. Qed.

Lemma NoDup_map_inj {A C} (f : A -> C) l : NoDup (map f l) -> forall a b, In a l -> In b l -> f a = f b -> a = b.
Proof.
  induction l as [|x l IH]; cbn [map In]; intros ND a b; [tauto|]. inversion ND as [|? ? NI ND']; subst. intros [<-|I] [<-|J] Q; auto.
  - exfalso. apply NI. rewrite Q. apply in_map. auto.
  - exfalso. apply NI. rewrite <- Q. apply in_map. auto.
Qed.
Lemma one_section h es sx ep N fsz x0 : n_pos h = Some (AInt x0) -> 0 < x0 < fsz -> n_num h = 0 -> n_env h = None -> n_next h = None ->
  NoDup (map n_num es) -> Forall (fun e => 1 <= n_num e <= N /\ n_next e = None /\ sure fsz es e) es ->
  (exists e, In e es /\ n_num e = N /\ n_env e = None) -> 0 <= ep < fsz ->
  exists nxt row, finish_seq [close_section (h :: es) false sx ep] fsz = Ok (nxt, N) /\
    build_index [close_section (h :: es) false sx ep] nxt N = Ok [row] /\ length row = Z.to_nat (N + 2) /\
    (exists nx, x0 < nx /\ cell row 0 (SDict (with_next (Some nx) (with_dver (Some 0) (with_over (Some 0) (with_stm false (with_sx (Some sx) h))))))) /\
    (exists e', pyget row (-1) = Ok (SDict e') /\ n_pos e' = Some (AInt ep)) /\
    (forall n, 1 <= n <= N -> ~ In n (map n_num es) -> cell row n SNone) /\
    (forall e z, In e es -> n_env e = None -> n_pos e = Some (AInt z) -> exists nx, z < nx /\
       cell row (n_num e) (SDict (with_next (Some nx) (with_dver (Some 0) (with_over (Some 0) e))))) /\
    (forall e env off, In e es -> n_pos e = Some (ATup env off) -> exists nx loc,
       cell row (n_num e) (SDict (with_next (Some nx) (with_pos (Some (AFloat loc (off + 1))) (with_dver (Some 0) (with_over (Some 0) e)))))).
Proof.
  intros HP HX HN HE HT ND FA (eN & IN & NN & EN) EP. rewrite Forall_forall in FA.
  set (ef := with_pos (Some (AInt ep)) (ient0 (-1) (-1))). set (h' := with_stm false (with_sx (Some sx) h)). set (sec := close_section (h :: es) false sx ep).
  assert (ES : sec = h' :: es ++ [ef]) by reflexivity.
  assert (N1 : 1 <= N) by (destruct (FA eN IN); lia).
  assert (SEQ : forall p n, In (p, n) (flat_map seq_of [sec]) <-> (p = x0 /\ n = 0) \/ (p = ep /\ n = -1) \/ exists e, In e es /\ n_env e = None /\ n_pos e = Some (AInt p) /\ n = n_num e).
  { intros p n. cbn [flat_map]. rewrite app_nil_r, ES. unfold seq_of. rewrite in_flat_map. split.
    - intros (e & I & J). cbn [In] in I. destruct I as [<-|I].
      + cbn [h' with_stm with_sx n_env n_pos n_num] in J. rewrite HE, HP, HN in J. destruct J as [J|[]]. injection J as <- <-. auto.
      + apply in_app_or in I as [I|[<-|[]]]; [right; right|right; left; cbn in J; destruct J as [J|[]]; injection J as <- <-; auto].
        exists e. destruct (n_env e); [destruct J|]. destruct (n_pos e) as [[z| |]|] eqn:PE; cbn [In] in J; try tauto. destruct J as [J|J]; [|tauto]. injection J as <- <-. auto.
    - intros [[-> ->]|[[-> ->]|(e & I & E1 & E2 & ->)]].
      + exists h'. split; [left; auto|]. cbn [h' with_stm with_sx n_env n_pos n_num]. rewrite HE, HP, HN. left. auto.
      + exists ef. split; [right; apply in_or_app; right; left; auto|]. left. auto.
      + exists e. split; [right; apply in_or_app; auto|]. rewrite E1, E2. left. auto. }
  assert (PB : forall p n, In (p, n) (flat_map seq_of [sec]) -> p < fsz /\ n <= N).
  { intros p n I. apply SEQ in I as [[-> ->]|[[-> ->]|(e & I & E1 & E2 & ->)]]; [lia|lia|]. destruct (FA e I) as (R & _ & [(_ & z & Q & B)|(? & ? & ? & ? & Q & _)]); [|congruence].
    assert (z = p) by congruence. lia. }
  destruct (finish_seq [sec] fsz) as [[nxt nb]| |] eqn:FS.
  2,3: exfalso; assert (I : In (x0, 0) (flat_map seq_of [sec])) by (apply (proj2 (SEQ x0 0)); auto); revert FS I; clear; unfold finish_seq; destruct (flat_map seq_of [sec]) as [|[? ?] ?]; cbn [In]; try discriminate; tauto.
  destruct (following_position _ _ _ _ FS) as (FP & NI & NM).
  { apply Forall_forall. intros [p n] I. apply PB in I. cbn [fst]. lia. }
  assert (ENB : nb = N).
  { apply in_map_iff in NI as ([p n] & Q & I). cbn [snd] in Q. apply PB in I. destruct (FA eN IN) as (_ & _ & [(_ & z & Q2 & B)|(? & ? & ? & ? & Q2 & _)]); [|congruence].
    assert (I2 : In (z, N) (flat_map seq_of [sec])) by (apply SEQ; right; right; exists eN; auto). rewrite Forall_forall in NM. specialize (NM _ I2). cbn [snd] in NM. lia. }
  subst nb.
  assert (LX : forall p n, In (p, n) (flat_map seq_of [sec]) -> exists x, zlookup p nxt = Some x /\ p < x).
  { intros p n I. pose proof (PB _ _ I) as [LT _]. assert (G : forall l, exists b, least_above (fsz :: l) p b).
    { clear -LT. induction l as [|a l (b & B1 & B2 & B3)]; [exists fsz; split; [left; auto|split; auto]; intros c [<-|[]]; lia|].
      destruct (Z_lt_dec p a) as [PA|PA]; [destruct (Z_le_dec a b) as [AB|AB]|].
      - exists a. split; [right; left; auto|]. split; auto. intros c [<-|[<-|C]] PC; try lia; [specialize (B3 fsz (or_introl eq_refl)); lia|specialize (B3 c (or_intror C) PC); lia].
      - exists b. split; [destruct B1; [left|right; right]; auto|]. split; auto. intros c [<-|[<-|C]] PC; try lia; apply B3; cbn [In]; auto.
      - exists b. split; [destruct B1; [left|right; right]; auto|]. split; auto. intros c [<-|[<-|C]] PC; try lia; apply B3; cbn [In]; auto. }
    destruct (G (map fst (flat_map seq_of [sec]))) as (b & B). exists b. split; [apply FP; split; [left|auto]; apply (in_map fst) in I; exact I|]. destruct B as (_ & B & _). exact B. }
  (* the raw row *)
  assert (OKN : Forall (fun s => Forall (fun o => ok_num N (n_num o)) (tl s)) [sec]).
  { constructor; [|constructor]. rewrite ES. cbn [tl]. apply Forall_app. split; [|constructor; [left; reflexivity|constructor]].
    apply Forall_forall. intros e I. destruct (FA e I). right. lia. }
  assert (INC : increasing 0 [sec]). { exists h', (es ++ [ef]), x0. split; [exact ES|]. split; [exact HP|]. split; [reflexivity|]. split; [lia|exact Logic.I]. }
  assert (RL : related N (repeat SNone (Z.to_nat (N + 2))) (fun _ => [])).
  { split; [rewrite repeat_length; lia|]. intros n Nn. split; [|constructor].
    destruct (pyidx_ok (repeat SNone (Z.to_nat (N + 2))) N n ltac:(lia)) as (i & PI & I1 & I2); auto; [rewrite repeat_length; lia|].
    rewrite (pyget_slot _ _ _ PI). rewrite repeat_length in I1. rewrite (nth_error_nth' _ SNone) by (rewrite repeat_length; lia).
    rewrite nth_repeat. reflexivity. }
  destruct (build_rows_ok N [sec] ltac:(lia) OKN [] false (repeat SNone (Z.to_nat (N + 2))) (-1) 0 _ RL INC) as (rows & EB & LB & RB).
  destruct rows as [|row [|? ?]]; [discriminate LB| |discriminate LB].
  destruct (RB 0%nat row sec eq_refl eq_refl) as (t & es1 & ES1 & R0 & RLL & RN). cbn [rev app] in EB. change (-1 + 1) with 0 in RN. change (-1 + 1 + Z.of_nat 0) with 0 in R0.
  assert (t = h') by (rewrite ES in ES1; congruence). subst t. clear ES1 es1.
  assert (CELL : forall n, ok_num N n -> pyget row n = Ok (match filter (fun e => n_num e =? n) (es ++ [ef]) with [] => SNone | e :: _ => SDict (with_dver (Some 0) (with_over (Some 0) e)) end)).
  { intros n ON. destruct (RN n ON) as [PG _]. rewrite PG. f_equal. cbn [firstn history]. unfold remember_all. rewrite ES. cbn [tl].
    assert (LE1 : exists o, filter (fun e => n_num e =? n) (es ++ [ef]) = match o with Some e => [e] | None => [] end).
    { assert (ND2 : NoDup (map n_num (es ++ [ef]))). { rewrite map_app. apply NoDup_rev in ND. rewrite <- (rev_involutive (map n_num es ++ _)). apply NoDup_rev. rewrite rev_app_distr. cbn [map rev app].
        constructor; [|exact ND]. rewrite <- in_rev, in_map_iff. intros (e & Q & I). destruct (FA e I) as (R & _). cbn in Q. lia. }
      eexists. apply filter_find. exact ND2. }
    destruct LE1 as (o & ->). destruct o as [e|]; reflexivity. }
  assert (ONE : forall e, In e es -> filter (fun e0 => n_num e0 =? n_num e) (es ++ [ef]) = [e]).
  { intros e I. rewrite filter_app, (filter_find es) by auto. cbn [filter]. destruct (FA e I) as (R & _). replace (n_num ef =? n_num e) with false by (cbn [ef with_pos ient0 n_num]; lia). rewrite app_nil_r.
    destruct (List.find _ es) as [e2|] eqn:Fi; [|apply (find_none _ _ Fi) in I; lia]. apply find_some in Fi as [I2 Q]. f_equal.
    apply (NoDup_map_inj n_num es); auto. lia. }
  assert (CE : forall e, In e es -> pyget row (n_num e) = Ok (SDict (with_dver (Some 0) (with_over (Some 0) e)))).
  { intros e I. rewrite CELL by (destruct (FA e I); right; lia). rewrite ONE by auto. reflexivity. }
  assert (CF : pyget row (-1) = Ok (SDict (with_dver (Some 0) (with_over (Some 0) ef)))).
  { rewrite CELL by (left; auto). rewrite filter_app. replace (filter (fun e => n_num e =? -1) es) with (@nil ient); [reflexivity|].
    symmetry. destruct (filter _ es) as [|e l] eqn:Q; auto. assert (I : In e (filter (fun e => n_num e =? -1) es)) by (rewrite Q; left; auto). apply filter_In in I as [I Q2]. destruct (FA e I). lia. }
  assert (CN : forall n, 1 <= n <= N -> ~ In n (map n_num es) -> pyget row n = Ok SNone).
  { intros n R NI2. rewrite CELL by (right; lia). destruct (filter _ (es ++ [ef])) as [|e l] eqn:Q; auto. exfalso. assert (I : In e (filter (fun e => n_num e =? n) (es ++ [ef]))) by (rewrite Q; left; auto).
    apply filter_In in I as [I Q2]. apply in_app_or in I as [I|[<-|[]]]; [|change (n_num ef) with (-1) in Q2; lia]. apply NI2. apply in_map_iff. exists e. split; auto. lia. }
  assert (FIN : forall s, In s row -> s = SNone \/ s = SDict (with_dver (Some 0) (with_over (Some 0) h')) \/ s = SDict (with_dver (Some 0) (with_over (Some 0) ef)) \/ exists e, In e es /\ s = SDict (with_dver (Some 0) (with_over (Some 0) e))).
  { intros s I. apply In_nth_error in I as (i & NE). assert (IL : (i < length row)%nat) by (apply nth_error_Some; congruence).
    assert (i = 0%nat \/ i = Z.to_nat (N + 1) \/ 1 <= Z.of_nat i <= N) as [->|[->|R]] by lia.
    - right. left. congruence.
    - right. right. left. destruct (pyidx_ok row N (-1) ltac:(lia) ltac:(lia) ltac:(left; auto)) as (j & PJ & _ & PJ2). cbn [Z.eqb Pos.eqb] in PJ2. rewrite (pyget_slot _ _ _ PJ) in CF.
      replace j with (Z.to_nat (N + 1)) in CF by lia. rewrite NE in CF. cbn [of_opt] in CF. congruence.
    - assert (PG : pyget row (Z.of_nat i) = Ok s). { destruct (pyidx_ok row N (Z.of_nat i) ltac:(lia) ltac:(lia) ltac:(right; lia)) as (j & PJ & _ & PJ2). rewrite (pyget_slot _ _ _ PJ).
        replace (Z.of_nat i =? -1) with false in PJ2 by lia. replace j with i by lia. rewrite NE. reflexivity. }
      destruct (in_dec Z.eq_dec (Z.of_nat i) (map n_num es)) as [I|NI2]; [|rewrite CN in PG by auto; left; congruence].
      apply in_map_iff in I as (e & Q & I). rewrite <- Q, CE in PG by auto. right. right. right. exists e. split; auto. congruence. }
  assert (MR : map_res (complete_slot [row] nxt) row = Ok (map (fin2 row nxt) row)).
  { apply map_res_map. intros s I. destruct (FIN s I) as [->|[->|[->|(e & IE & ->)]]]; [reflexivity| | |].
    - cbn [complete_slot fin2]. unfold complete. cbn [with_dver with_over n_next n_dver n_pos h' with_stm with_sx]. rewrite HT, HP. cbn [of_opt bind].
      destruct (LX x0 0) as (x & -> & _); [apply SEQ; auto|]. reflexivity.
    - cbn [complete_slot fin2]. unfold complete. cbn [with_dver with_over n_next n_dver n_pos ef with_pos ient0]. cbn [of_opt bind].
      destruct (LX ep (-1)) as (x & -> & _); [apply SEQ; auto|]. reflexivity.
    - destruct (FA e IE) as (R & NX & SU). cbn [complete_slot fin2]. unfold complete. cbn [with_dver with_over n_next n_dver n_pos]. rewrite NX. cbn [of_opt bind].
      destruct SU as [(E0 & z & P0 & B)|(env & off & ee & z & E1 & P0 & I2 & <- & E2 & P2 & B)]; rewrite P0.
      + destruct (LX z (n_num e)) as (x & -> & _); [apply SEQ; right; right; exists e; auto|]. reflexivity.
      + change (pyget [row] 0) with (Ok row). cbn [bind]. rewrite CE by auto. cbn [bind as_dict]. unfold pos_int. cbn [with_dver with_over n_pos]. rewrite P2. cbn [bind].
        destruct (LX z (n_num ee)) as (x & -> & _); [apply SEQ; right; right; exists ee; auto|]. reflexivity. }
  assert (LR : Z.of_nat (length row) = N + 2) by apply RLL.
  assert (GET : forall n s, ok_num N n -> pyget row n = Ok s -> pyget (map (fin2 row nxt) row) n = Ok (fin2 row nxt s)).
  { intros n s ON PG. destruct (pyidx_ok row N n ltac:(lia) LR ON) as (j & PJ & J1 & _).
    assert (PJ' : pyidx (map (fin2 row nxt) row) n = Some j) by (unfold pyidx in *; rewrite map_length; auto).
    rewrite (pyget_slot _ _ _ PJ) in PG. rewrite (pyget_slot _ _ _ PJ'), nth_error_map. destruct (nth_error row j); cbn [of_opt option_map] in *; congruence. }
  assert (CLL : forall n s, 1 <= n <= N -> pyget row n = Ok s -> cell (map (fin2 row nxt) row) n (fin2 row nxt s)).
  { intros n s R PG. apply pyget_cell; [lia|]. apply GET; auto. right. lia. }
  exists nxt, (map (fin2 row nxt) row). split; [reflexivity|]. split; [|split; [|split; [|split; [|split; [|split]]]]].
  - unfold build_index. cbn [rev app]. rewrite hybrid_none by (constructor; [exists h', (es ++ [ef]); split; [exact ES|reflexivity]|constructor]). cbn [rev app bind]. fold sec. rewrite EB. cbn [bind map_res]. rewrite MR. reflexivity.
  - rewrite map_length. lia.
  - destruct (LX x0 0) as (x & LXX & XL); [apply SEQ; auto|]. exists x. split; auto. split; [lia|]. rewrite nth_error_map. change (Z.to_nat 0) with 0%nat. rewrite R0. cbn [option_map fin2 with_dver with_over n_pos h' with_stm with_sx]. rewrite HP, LXX. reflexivity.
  - pose proof (GET (-1) _ (or_introl eq_refl) CF) as G. cbn [fin2 with_dver with_over n_pos ef with_pos ient0] in G. eexists. split; [exact G|]. reflexivity.
  - intros n R NI2. apply (CLL n SNone); auto.
  - intros e z I E0 P0. destruct (LX z (n_num e)) as (x & LXX & XL); [apply SEQ; right; right; exists e; auto|]. exists x. split; auto. destruct (FA e I) as (R & _). pose proof (CLL (n_num e) _ R (CE e I)) as C. cbn [fin2 with_dver with_over n_pos] in C. rewrite P0, LXX in C. exact C.
  - intros e env off I P0. destruct (FA e I) as (R & _ & [(_ & z & Q & _)|(env1 & off1 & ee & z & E1 & Q & I2 & NE & E2 & P2 & B)]); [congruence|].
    assert (env1 = env /\ off1 = off) as [-> ->] by (split; congruence). pose proof (CLL (n_num e) _ R (CE e I)) as C. cbn [fin2 with_dver with_over n_pos] in C. rewrite P0 in C.
    rewrite <- NE, CE in C by auto. cbn [with_dver with_over n_pos] in C. rewrite P2 in C. destruct (LX z (n_num ee)) as (x & LXX & XL); [apply SEQ; right; right; exists ee; auto|]. rewrite LXX in C. exists x, z. exact C.
Qed.

(* ---------- the document made from such a file ---------- *)
Lemma trailer_good F num a c enc e x z : good F num z (PStream a c enc) -> 0 <= num -> n_pos e = Some (AInt z) -> n_next e = Some x -> z < x ->
  trailer_at (PvSingle F) e = Ok a.
Proof.
  intros G N0 P N LT. pose proof (good_range _ _ _ _ G) as R0. unfold blen in R0. destruct (single_at F (Z.to_nat z) (x - z)) as (m & R); [lia|lia|]. rewrite Z2Nat.id in R by lia.
  destruct G as (_ & o & v & V & pre & b & E & L). replace (Z.to_nat z) with (length pre) in R by lia. unfold trailer_at, entry_bytes, pos_int. rewrite P. cbn [bind]. rewrite N. cbn [of_opt bind].
  rewrite R. cbn [bind]. pose proof (object_tokens num 0 o _ v pre b V) as T.
  assert (ET : pre ++ dec num ++ [32] ++ dec 0 ++ [32] ++ W_objkw ++ [10] ++ v ++ [10] ++ W_endobj ++ [10] ++ b = F).
  { rewrite E. unfold object_text. rewrite <- !app_assoc. reflexivity. }
  cbv zeta in T. rewrite ET in T. destruct T as (T1 & T2 & T3 & T4 & (j & k & T5 & _) & _). rewrite T1.
  replace (sub F (length pre) (length (pre ++ dec num))) with (dec num).
  2:{ symmetry. rewrite <- ET. apply sub_app_exact; rewrite ?app_length; lia. }
  replace (beqb (dec num) W_trailer) with false.
  2:{ symmetry. apply Bool.not_true_is_false. intro Q. apply beqb_eq in Q. destruct (dec_dig num N0) as [D _]. rewrite Q in D. inversion D as [|? ? D1 _]; subst. revert D1. clear. vm_compute. intuition congruence. }
  rewrite T2, T3, T5, T4. reflexivity.
Qed.

Lemma load_one F f h es sx N x0 num a dt : n_pos h = Some (AInt x0) -> 0 < x0 < blen F -> n_num h = 0 -> n_env h = None -> n_next h = None ->
  n_del h = false -> n_xsn h = Some num -> 0 < num -> n_xt h = None -> n_xs h = Some x0 ->
  NoDup (map n_num es) -> Forall (fun e => 1 <= n_num e <= N /\ n_next e = None /\ sure (blen F) es e) es ->
  (exists e, In e es /\ n_num e = N /\ n_env e = None) -> (exists e, In e es /\ n_num e <> num) ->
  xref_chrono f (PvSingle F) = Ok [close_section (h :: es) false sx (blen F - 6)] -> F = a ++ B "%%EOF" ++ [10] ->
  (forall e x, n_pos e = Some (AInt x0) -> n_next e = Some x -> x0 < x -> trailer_at (PvSingle F) e = Ok dt) ->
  NoDup (map fst dt) -> dget K_DecodeParms' dt = None -> dget K_XRefStm dt = None ->
  exists q d2 re, loads f F = Ok d2 /\ d_index d2 = [q; SDict re :: skipn 1 q] /\ n_env re = None /\ length q = Z.to_nat (N + 1) /\
    d_data d2 = [mk_datum (Some (blen F)) None (Some (PvSingle F)); mk_datum None None (Some (PvSingle F))] /\
    length (d_cache d2) = length q /\
    cell (d_cache d2) 0 (PDict (dset K_Prev (PInt x0) (dset K_Size (PInt (N + 1)) dt))) /\
    (forall n o, 0 < n -> cell (d_cache d2) n o -> o = PNone) /\
    (forall n, 1 <= n <= N -> ~ In n (map n_num es) -> cell q n SNone) /\
    (forall e z, In e es -> n_env e = None -> n_pos e = Some (AInt z) -> exists nx, z < nx /\
       cell q (n_num e) (SDict (with_next (Some nx) (with_dver (Some 0) (with_over (Some 0) e))))) /\
    (forall e env off, In e es -> n_pos e = Some (ATup env off) -> exists nx loc,
       cell q (n_num e) (SDict (with_next (Some nx) (with_pos (Some (AFloat loc (off + 1))) (with_dver (Some 0) (with_over (Some 0) e)))))).
Proof.
  intros HP HX HN HE HT HD HXS NUM HXT HXP ND FA (eN & IN & NN & EN) (eO & IO & NO) XC EF TA DN DD DX.
  assert (EP : 0 <= blen F - 6 < blen F) by (rewrite EF; unfold blen; rewrite !app_length; change (length (B "%%EOF")) with 5%nat; cbn [length]; lia).
  destruct (one_section h es sx (blen F - 6) N (blen F) x0 HP HX HN HE HT ND FA (ex_intro _ eN (conj IN (conj NN EN))) EP) as (nxt & lrow & FS & BI & LEN & (nx0 & LX0 & C0) & (ee & PG & PE) & CN & CD & CM).
  assert (FA' := FA). rewrite Forall_forall in FA'. assert (N1 : 1 <= N) by (destruct (FA' eN IN); lia).
  set (p := PvSingle F). apply pyget_last_inv in PG as [q EQ]. assert (LQ : length q = Z.to_nat (N + 1)) by (rewrite EQ, app_length in LEN; cbn [length] in LEN; lia).
  assert (CQ : forall n x, n <= N -> cell lrow n x -> cell q n x) by (intros n x LT C; rewrite EQ in C; eapply cell_removelast; eauto; lia).
  set (e0 := with_next (Some nx0) _) in C0. assert (CQ0 : cell q 0 (SDict e0)) by (apply CQ; [lia|auto]).
  assert (ED : eof_data p [lrow] = Ok [mk_datum (Some (blen F)) None (Some p)]).
  { unfold p. cbn [eof_data]. rewrite EQ, pyget_last. cbn [bind as_dict]. unfold pos_int. rewrite PE. cbn [bind]. rewrite (cut_end F _ EF). reflexivity. }
  set (cache := lset (repeat PNone (length q)) 0 (PDict dt)).
  assert (RN : cell (repeat PNone (length q)) 0 PNone) by (split; [lia|]; rewrite LQ; destruct (Z.to_nat (N + 1)) eqn:Q; [lia|reflexivity]).
  assert (BC : build_cache p [removelast lrow] = Ok cache).
  { unfold build_cache. change (pyget [removelast lrow] (-1)) with (@Ok (list slot) (removelast lrow)). cbn [bind]. rewrite EQ, removelast_last. unfold memoize. rewrite (proj2 (pyget_cell q 0 _ ltac:(lia)) CQ0). cbn [bind deleted_in].
    replace (n_del e0) with false by (symmetry; exact HD). cbn [bind].
    rewrite (proj2 (pyget_cell _ 0 _ ltac:(lia)) RN). cbn [bind is_none negb]. change (0 =? 0) with true. cbn [trailers as_dict bind]. unfold p. rewrite (TA e0 nx0 HP eq_refl LX0). cbn [bind].
    rewrite dupdate_fresh by auto. cbn [app]. rewrite pyset_ok by (rewrite repeat_length; lia). reflexivity. }
  set (d0 := mk_doc [q] cache [mk_datum (Some (blen F)) None (Some p)]).
  assert (DI : doc_initial f p = Ok d0).
  { unfold doc_initial, p. unfold build_xref_sequence. rewrite XC. cbn [bind]. rewrite single_length. cbn [bind]. rewrite FS. cbn [bind]. rewrite BI. cbn [bind]. fold p. rewrite ED. cbn [bind map]. rewrite BC. cbn [bind]. rewrite EQ, removelast_last. reflexivity. }
  assert (CC0 : cell cache 0 (PDict dt)) by (unfold cache; change 0%nat with (Z.to_nat 0); apply cell_lset; [rewrite repeat_length; lia|auto]).
  assert (CCN : forall n o, 0 < n -> cell cache n o -> o = PNone).
  { intros n o P C. unfold cache in C. change 0%nat with (Z.to_nat 0) in C. rewrite cell_lset in C by (rewrite repeat_length; lia). destruct C as [[Q _]|[_ [_ C]]]; [lia|]. apply nth_error_In, repeat_spec in C. auto. }
  assert (X0 : first_xsn d0 = Ok (Some num)).
  { unfold first_xsn. change (pyget (d_index d0) 0) with (@Ok (list slot) q). cbn [bind]. rewrite (proj2 (pyget_cell q 0 _ ltac:(lia)) CQ0). cbn [bind]. replace (n_xsn e0) with (Some num) by (symmetry; exact HXS). reflexivity. }
  assert (CELL : forall n s, 1 <= n -> cell q n s -> s = SNone \/ exists e, s = SDict e /\ n_num e = n).
  { intros n s P C. pose proof (cell_range _ _ _ C) as R. destruct (in_dec Z.eq_dec n (map n_num es)) as [I|NI]; [|left; eapply cell_fun; [exact C|]; apply CQ; [lia|]; apply CN; auto; lia].
    apply in_map_iff in I as (e & <- & I). right. destruct (FA' e I) as (_ & _ & [(E1 & z & E2 & _)|(env & off & _ & _ & _ & E2 & _)]).
    - destruct (CD e z I E1 E2) as (nx & _ & C'). apply CQ in C'; [|lia]. pose proof (cell_fun _ _ _ _ C C') as ->. eexists. split; reflexivity.
    - destruct (CM e env off I E2) as (nx & loc & C'). apply CQ in C'; [|lia]. pose proof (cell_fun _ _ _ _ C C') as ->. eexists. split; reflexivity. }
  assert (TQ : tidy q). { intros n x P C ll ->. destruct (CELL n _ ltac:(lia) C) as [Q|(e & Q & _)]; discriminate. }
  assert (S0 : exists s0, cell q 0 s0 /\ s0 <> SNone) by (exists (SDict e0); split; [auto|discriminate]).
  destruct (changes_single d0 q eq_refl TQ S0) as (chg & EC & _ & IC).
  assert (NC : chg <> []).
  { destruct (FA' eO IO) as (RO & _ & SU). assert (exists e, cell q (n_num eO) (SDict e)) as (e & C).
    { destruct SU as [(E1 & z & E2 & _)|(env & off & _ & _ & _ & E2 & _)].
      - destruct (CD eO z IO E1 E2) as (nx & _ & C'). apply CQ in C'; [|lia]. eauto.
      - destruct (CM eO env off IO E2) as (nx & loc & C'). apply CQ in C'; [|lia]. eauto. }
    intros ->. assert (I : @In change ((n_gen e, n_num eO), Add) []); [|destruct I]. apply IC. split; auto. split; [lia|]. exists e. split; [apply at_num_cell; auto; lia|]. split; auto.
    intros (e1 & C1 & Q). pose proof (cell_fun _ _ _ _ C1 CQ0) as Y. injection Y as ->. replace (n_xsn e0) with (Some num) in Q by (symmetry; exact HXS). congruence. }
  set (t1 := dset K_Size (PInt (Z.of_nat (length q))) dt).
  assert (OT : opening_trailer e0 t1 = dset K_Prev (PInt x0) t1).
  { unfold opening_trailer. replace (prev_pos e0) with (PInt x0). 2:{ unfold prev_pos. replace (n_xt e0) with (@None Z) by (symmetry; exact HXT). replace (n_xs e0) with (Some x0) by (symmetry; exact HXP). reflexivity. }
    unfold dhas. rewrite dget_dset_neq by discriminate. unfold t1. rewrite dget_dset_neq by discriminate. rewrite DX. reflexivity. }
  assert (CMT : commit d0 = Ok (mk_doc [q; SDict (revision_entry d0 (Some num)) :: skipn 1 q] (lset (lset cache 0 (PDict t1)) 0 (PDict (dset K_Prev (PInt x0) t1)))
      [mk_datum (Some (blen F)) None (Some p); mk_datum None None (Some p)])).
  { unfold commit. rewrite EC. cbn [bind]. destruct chg as [|c0 chg0]; [congruence|]. unfold last_row. change (pyget (d_index d0) (-1)) with (@Ok (list slot) q). cbn [bind]. change (d_cache d0) with cache. rewrite (proj2 (pyget_cell _ 0 _ ltac:(lia)) CC0). cbn [bind]. rewrite X0. cbn [bind].
    assert (TN : truthy (Some num) = true) by (cbn [truthy]; lia). rewrite TN. unfold commit_row. replace (num =? -1) with false by lia. cbn [bind andb]. rewrite DD. fold t1.
    pose proof (cell_range _ _ _ CC0) as R0. rewrite pyset_ok by lia. change (Z.to_nat 0) with 0%nat. cbn [bind]. change (pyget (d_data d0) (-1)) with (@Ok datum (mk_datum (Some (blen F)) None (Some p))). cbn [bind dt_cut dt_fdata of_opt].
    change (pyset (d_data d0) (-1) (mk_datum (Some (blen F)) None (Some p))) with (@Ok (list datum) [mk_datum (Some (blen F)) None (Some p)]).
    change (pyset (d_index d0) (-1) q) with (@Ok (list (list slot)) [q]). cbn [bind]. rewrite (proj2 (pyget_cell q 0 _ ltac:(lia)) CQ0). cbn [bind].
    assert (C1 : cell (lset cache 0 (PDict t1)) 0 (PDict t1)) by (change 0%nat with (Z.to_nat 0); apply cell_lset; [lia|auto]).
    rewrite (proj2 (pyget_cell _ 0 _ ltac:(lia)) C1). cbn [bind dict_of]. rewrite pyset_ok by (rewrite lset_length; lia). cbn [bind app]. rewrite <- OT. unfold opening_trailer, revision_entry. rewrite TN. reflexivity. }
  assert (LC : length cache = length q) by (unfold cache; rewrite lset_length, repeat_length; auto).
  eexists q, _, (revision_entry d0 (Some num)). split; [unfold loads, doc_constructor; fold p; rewrite DI; cbn [bind]; exact CMT|]. cbn [d_index d_data d_cache].
  split; [reflexivity|]. split; [reflexivity|]. split; [auto|]. split; [reflexivity|]. split; [rewrite !lset_length; auto|].
  split. { replace (N + 1) with (Z.of_nat (length q)) by lia. change 0%nat with (Z.to_nat 0). apply cell_lset; [rewrite lset_length; lia|auto]. }
  split. { intros n o P C. apply (CCN n o P). change 0%nat with (Z.to_nat 0) in C. rewrite !cell_lset in C by (rewrite ?lset_length; lia). destruct C as [[Q _]|[_ [[Q _]|[_ Q]]]]; [lia|lia|auto]. }
  split; [intros n R NI; apply CQ; [lia|]; apply CN; auto|].
  split; [intros e z I E1 E2; destruct (CD e z I E1 E2) as (nx & LT & C); exists nx; split; auto; apply CQ; auto; destruct (FA' e I); lia|].
  intros e env off I E2. destruct (CM e env off I E2) as (nx & loc & C). exists nx, loc. apply CQ; auto. destruct (FA' e I); lia.
Qed.

(* ---------- what the object stream receives ---------- *)
Definition packs (cache : list obj) (c : change) (p : Z * obj) : Prop := fst p = num_of c /\ cell cache (num_of c) (snd p).
Lemma packs_lset cache env v cs os : Forall2 (packs (lset cache (Z.to_nat env) v)) cs os -> 0 <= env < Z.of_nat (length cache) ->
  Forall (fun c => num_of c <> env) cs -> Forall2 (packs cache) cs os.
Proof.
  intros F R. induction F as [|c p cs os (A1 & A2) _ IH]; intro N; inversion N; subst; constructor; auto. split; auto.
  rewrite cell_lset in A2 by auto. destruct A2 as [[Q _]|[_ A2]]; [congruence|auto].
Qed.
Lemma embed_pack cur env l : forall cache cache' el x, embed_changes cur cache l = Ok (cache', el) -> 0 <= env ->
  Forall (fun c => 0 <= num_of c) l ->
  (forall c e, In c l -> emb cur c = true -> cell cur (num_of c) (SDict e) -> n_env e = Some env) ->
  (forall c, In c l -> emb cur c = true -> num_of c <> env) -> cell cache env x ->
  exists os x', Forall2 (packs cache) (filter (emb cur) l) os /\ pack os x = Ok x' /\ cell cache' env x'.
Proof.
  induction l as [|[[g num] a] l IH]; intros cache cache' el x EC E0 NN EV NE CX.
  - cbn in EC. inversion EC; subst. exists [], x. split; [constructor|]. split; auto.
  - inversion NN as [|? ? N0 NN']; subst. cbn [num_of fst snd] in N0. cbn [embed_changes fst snd] in EC.
    destruct (pyget cur num) as [sl| |] eqn:E1; try discriminate. cbn [bind] in EC.
    destruct (as_dict sl) as [e| |] eqn:EA; try discriminate. cbn [bind] in EC.
    apply as_dict_inv in EA. subst sl. apply pyget_cell in E1; auto.
    assert (EM : emb cur (((g, num) : ref), a) = negb (is_del a) && truthy (n_env e)).
    { unfold emb. cbn [num_of fst snd]. destruct E1 as [_ ->]. reflexivity. }
    cbn [filter]. rewrite EM. destruct (negb (is_del a) && truthy (n_env e)) eqn:Q.
    + pose proof (EV _ e (or_introl eq_refl) EM E1) as EE. pose proof (NE _ (or_introl eq_refl) EM) as NE1. cbn [num_of fst snd] in NE1. rewrite EE in EC. cbn [of_opt bind] in EC.
      destruct (pyget cache num) as [o| |] eqn:E2; try discriminate. cbn [bind] in EC. apply pyget_cell in E2; auto.
      rewrite (proj2 (pyget_cell cache env x E0) CX) in EC. cbn [bind] in EC.
      destruct (append_to_stream_fragment num o x) as [x1| |] eqn:E3; try discriminate. cbn [bind] in EC.
      pose proof (cell_range _ _ _ CX) as R. rewrite pyset_ok in EC by lia. cbn [bind] in EC.
      destruct (get_pos_in_stream x1) as [pos| |]; try discriminate. cbn [bind] in EC.
      destruct (embed_changes cur (lset cache (Z.to_nat env) x1) l) as [[c2 el2]| |] eqn:E4; try discriminate. cbn [bind] in EC. inversion EC; subst.
      destruct (IH _ _ _ x1 E4 E0 NN') as (os & x' & F & P & C); auto.
      { intros c e1 I. apply EV. right. auto. }
      { intros c I. apply NE. right. auto. }
      { apply cell_lset; [lia|]. left. auto. }
      exists ((num, o) :: os), x'. split; [constructor; [split; auto|]|].
      * eapply packs_lset; [exact F|lia|]. apply Forall_forall. intros c I. apply filter_In in I as [I M]. apply NE; [right; auto|auto].
      * split; auto. cbn [pack]. rewrite E3. cbn [bind]. exact P.
    + apply (IH _ _ _ x EC E0 NN'); auto; intros; [eapply EV|eapply NE]; eauto; right; auto.
Qed.
Lemma build_pack chg cur cache sp xsn R ni cache' env x : build_revision_byte_stream chg cur cache sp xsn = Ok (R, ni, cache') -> 0 < env ->
  Forall (fun c => 1 <= num_of c) chg ->
  (forall c e, In c chg -> emb cur c = true -> cell cur (num_of c) (SDict e) -> n_env e = Some env) ->
  (forall c, In c chg -> emb cur c = true -> num_of c <> env) -> cell cache env x ->
  exists os x', Forall2 (packs cache) (filter (emb cur) chg) os /\ pack os x = Ok x' /\ cell cache' env x'.
Proof.
  intros BR E0 NN EV NE CX. unfold build_revision_byte_stream in BR.
  destruct (embed_changes cur cache _) as [[c1 el1]| |] eqn:EE; cbn [bind] in BR; try discriminate.
  destruct (embed_pack cur env _ _ _ _ x EE ltac:(lia)) as (os & x' & F & P & C); auto.
  { constructor; [cbn; lia|]. eapply Forall_impl; [|exact NN]. cbn. lia. }
  { intros c e [<-|I] M; [discriminate M|eauto]. }
  { intros c [<-|I] M; [discriminate M|eauto]. }
  cbn [filter emb is_del snd negb andb] in F. exists os, x'. split; [exact F|]. split; [exact P|].
  destruct (write_changes cur c1 cur _ None _) as [[[[[fr el2] ni'] cnt] la]| |]; cbn [bind] in BR; try discriminate.
  destruct (pyget c1 0) as [c0| |]; cbn [bind] in BR; try discriminate.
  destruct (negb (truthy xsn)).
  - destruct (format_xref_table _ c0 _) as [built| |]; cbn [bind] in BR; try discriminate.
    destruct (upd_slot ni' 0 _); cbn [bind] in BR; try discriminate. injection BR as _ _ <-. auto.
  - destruct (of_opt _ xsn) as [z| |]; cbn [bind] in BR; try discriminate.
    destruct (match c0 with PDict _ => _ | _ => _ end) as [d0| |]; cbn [bind] in BR; try discriminate.
    destruct (format_xref_stream _ d0 _ _) as [[built d1]| |]; cbn [bind] in BR; try discriminate.
    destruct (of_opt _ la) as [blk| |]; cbn [bind] in BR; try discriminate.
    destruct (upd_slot ni' _ _) as [n1| |]; cbn [bind] in BR; try discriminate.
    destruct (upd_slot n1 0 _) as [n2| |]; cbn [bind] in BR; try discriminate.
    pose proof (cell_range _ _ _ C) as R1. rewrite pyset_ok in BR by lia. cbn [bind] in BR. injection BR as _ _ <-. change (Z.to_nat 0) with 0%nat. change 0%nat with (Z.to_nat 0). apply cell_lset; [lia|]. right. split; [lia|auto].
Qed.

Lemma simply_plain d : simply_filtered d -> plain_filter d.
Proof.
  intros (P & [F|[F|[F|F]]]); [left; auto| | |]; right; eexists; (split; [split; [left; exact F|exact P]|]); auto.
Qed.
Lemma forall2_nth_r {A C} (R : A -> C -> Prop) l m : Forall2 R l m -> forall k y, nth_error m k = Some y -> exists x, nth_error l k = Some x /\ R x y.
Proof. induction 1; intros [|k] z K; cbn in K; try discriminate; [injection K as <-; exists x; auto|apply IHForall2 in K; auto]. Qed.
Lemma forall2_nth_l {A C} (R : A -> C -> Prop) l m : Forall2 R l m -> forall k x, nth_error l k = Some x -> exists y, nth_error m k = Some y /\ R x y.
Proof. induction 1; intros [|k] z K; cbn in K; try discriminate; [injection K as <-; exists y; auto|apply IHForall2 in K; auto]. Qed.

(* the file made by one revision with an xref stream and one object stream *)
Record packed_file (F : bytes) (chg : list change) (cache cache' : list obj) (row : list slot) (env num : Z) (elems : list xelem) (x0 : Z)
  (sd sd' : dict) (os : list (Z * obj)) (data enc : bytes) : Prop := {
  pf_nums : NoDup (map xe_num elems);
  pf_range : forall e, In e elems -> e = mk_xe true 0 65534 None None \/ exists c, In c chg /\ xe_num e = num_of c;
  pf_all : forall c, In c chg -> exists e, In e elems /\ xe_num e = num_of c;
  pf_direct : forall c e, In c chg -> cell row (num_of c) (SDict e) -> n_env e = None -> num_of c <> env -> exists z o,
    In (mk_xe false (num_of c) 0 (Some z) None) elems /\ cell cache (num_of c) o /\ savable o /\ good F (num_of c) z (rvs o) /\ 0 < z;
  pf_env : exists z, In (mk_xe false env 0 (Some z) None) elems /\ good F env z (PStream (rvd sd') (Some data) (Some enc)) /\ 0 < z;
  pf_inside : forall c e, In c chg -> cell row (num_of c) (SDict e) -> n_env e = Some env -> exists pos o,
    In (mk_xe false (num_of c) 0 (Some pos) (Some env)) elems /\ cell cache (num_of c) o /\ In (num_of c, o) os;
  pf_os : os <> [] /\ NoDup (map fst os) /\ Forall (fun p => wf_top (snd p) /\ exists c e, In c chg /\ fst p = num_of c /\ cell row (num_of c) (SDict e) /\ n_env e = Some env /\ cell cache (num_of c) (snd p)) os;
  pf_first : dget K_First (rvd sd') = Some (PInt (blen (hdr (index_line 0 os) ++ [10]))) /\ (exists z, dget K_N (rvd sd') = Some (PInt z)) /\ data = (hdr (index_line 0 os) ++ [10]) ++ body os
}.

Lemma filter_nodup_map {A C} (g : A -> C) (f : A -> bool) l : NoDup (map g l) -> NoDup (map g (filter f l)).
Proof.
  induction l as [|x l IH]; cbn [map filter]; intro ND; [constructor|]. inversion ND as [|? ? NI ND']; subst. destruct (f x); auto. cbn [map]. constructor; auto.
  intro I. apply NI. apply in_map_iff in I as (y & Q & I). apply filter_In in I as [I _]. apply in_map_iff. eauto.
Qed.

Lemma wfv_drop k d : wfv (PDict d) -> wfv (PDict (ddel k d)).
Proof.
  intro W. inversion W as [| | | | | | | | |? ND FA]; subst. constructor.
  - unfold ddel. apply filter_nodup_map. auto.
  - rewrite Forall_forall in *. intros x I. apply filter_In in I as [I _]. auto.
Qed.
Lemma finalize_wfv d s e d' s' e' : finalize_stream (PStream d s e) = Ok (PStream d' s' e') -> wfv (PDict d) -> wfv (PDict d').
Proof.
  unfold finalize_stream. intros E W. match type of E with bind ?X _ = _ => destruct X as [[hd d1]| |] eqn:EX; try discriminate end. cbn [bind] in E.
  assert (W1 : wfv (PDict d1)).
  { destruct (negb _ && negb _); [|injection EX as _ <-; auto]. destruct (of_opt _ (dget K_FirstLine d)) as [fl| |]; try discriminate. cbn [bind] in EX.
    match type of EX with bind ?X _ = _ => destruct X as [il| |]; try discriminate end. cbn [bind] in EX. injection EX as _ <-.
    apply wfv_drop. apply wfv_dset; [|apply name_ok; reflexivity|constructor]. apply wfv_dset; [auto|apply name_ok; reflexivity|constructor]. }
  destruct s as [s|]; try discriminate. cbn [of_opt bind] in E. unfold forge_stream in E. destruct (encode_stream _ _) as [enc| |]; try discriminate. cbn [bind] in E. rewrite dget_dset_eq in E. injection E as <- _ _.
  apply wfv_dset; [|apply name_ok; reflexivity|constructor]. apply wfv_dset; [auto|apply name_ok; reflexivity|constructor].
Qed.

Lemma packed_build P chg row cache num R ni cache' env sd en t : zlib_ok ->
  build_revision_byte_stream chg row cache (blen P) (Some num) = Ok (R, ni, cache') ->
  cell cache 0 (PDict t) -> wfv (PDict t) -> NoDup (map chg_num chg) -> 0 < num ->
  (forall c, In c chg -> snd c <> Del /\ 0 < chg_num c < num /\ exists e o, cell row (chg_num c) (SDict e) /\ n_gen e = 0 /\ cell cache (chg_num c) o /\
     (n_env e = None /\ (chg_num c = env \/ savable o) \/ chg_num c <> env /\ n_env e = Some env /\ wf_top o)) ->
  0 < env -> In env (map chg_num chg) -> (exists c e, In c chg /\ cell row (chg_num c) (SDict e) /\ n_env e = Some env) ->
  cell cache env (PStream sd (Some []) en) -> wfv (PDict sd) -> dget K_Type sd = Some (PStr V_ObjStm) -> dget K_First sd = None -> dget K_N sd = None ->
  dget K_FirstLine sd = None -> simply_filtered sd ->
  (forall o, cell cache' env o -> completes_clean o) ->
  (exists e0, cell row 0 (SDict e0) /\ n_env e0 = None) ->
  exists pre txt t1 elems sd' os data enc, let x0 := Z.of_nat (length pre) in
    P ++ R = (pre ++ txt) ++ tail_text (length pre) /\ blen P <= x0 /\
    format_xref_stream (elems ++ [mk_xe false num 0 (Some x0) None]) t (circular_deleted chg) num = Ok (txt, t1) /\
    cell cache' 0 (PDict t1) /\ packed_file (P ++ R) chg cache cache' row env num elems x0 sd sd' os data enc /\
    (forall k o, k <> 0 -> k <> env -> cell cache' k o <-> cell cache k o) /\ length ni = length row /\
    (exists e0, cell row 0 (SDict e0) /\ cell ni 0 (SDict (with_next (Some (x0 + blen txt)) (with_pos (Some (AInt x0)) (with_xs (Some x0) e0))))).
Proof.
  intros ZO BR C0 W ND N0 CC E0 EI EX CE WS T1 T2 T3 T4 SF CL (e0 & Z0 & ZE).
  assert (NN : Forall (fun c => 1 <= num_of c) chg) by (apply Forall_forall; intros c I; destruct (CC c I) as (_ & Q & _); unfold chg_num in Q; unfold num_of; lia).
  assert (EMB : forall c e, In c chg -> cell row (num_of c) (SDict e) -> emb row c = match n_env e with None => false | Some _ => true end).
  { intros c e I C. destruct (CC c I) as (ND1 & _ & e1 & o1 & C1 & _ & _ & D). unfold chg_num in C1. pose proof (cell_fun _ _ _ _ C C1) as Q. injection Q as ->.
    unfold emb, num_of. destruct C1 as [_ ->]. replace (is_del (snd c)) with false by (destruct (snd c); try reflexivity; congruence). cbn [negb andb].
    destruct D as [(-> & _)|(_ & -> & _)]; [reflexivity|]. cbn [truthy]. lia. }
  assert (EENV : forall c e, In c chg -> emb row c = true -> cell row (num_of c) (SDict e) -> n_env e = Some env).
  { intros c e I M C. rewrite (EMB c e I C) in M. destruct (CC c I) as (_ & _ & e1 & o1 & C1 & _ & _ & D). unfold chg_num in C1. pose proof (cell_fun _ _ _ _ C C1) as Q. injection Q as ->.
    destruct D as [(E & _)|(_ & E & _)]; [rewrite E in M; discriminate|exact E]. }
  assert (NENV : forall c, In c chg -> emb row c = true -> num_of c <> env).
  { intros c I M. destruct (CC c I) as (_ & _ & e1 & o1 & C1 & _ & _ & D). rewrite (EMB c e1 I C1) in M. destruct D as [(E & _)|(Q & _)]; [rewrite E in M; discriminate|exact Q]. }
  destruct (build_pack _ _ _ _ _ _ _ _ env _ BR E0 NN EENV NENV CE) as (os & x' & FO & PK & CX').
  destruct (revision_layout chg row cache (blen P) (Some num) R ni cache' BR NN) with (P := P) as (l & elems & built & cnt & cache1 & (bdy & ER & EB) & AP & RG & PM & F2 & SS & CK & LN & UN & XS & _); auto.
  { intros c I Q. destruct (CC c I) as (_ & Q2 & _). unfold chg_num, num_of in *. injection Q as Q. lia. }
  { intros x Q. injection Q as <-. lia. }
  { intros c e env1 I C Q. destruct (CC c I) as (_ & _ & e' & o & C' & _ & _ & D). unfold chg_num in C'. pose proof (cell_fun _ _ _ _ C C') as X. injection X as ->. destruct D as [(E & _)|(_ & E & _)]; rewrite E in Q; [discriminate|injection Q as <-; lia]. }
  { intros n dd ss ee fl (c & e & I & M & C & E) CN FL. rewrite (EENV c e I M C) in E. injection E as <-. pose proof (cell_fun _ _ _ _ CN CE) as Q. injection Q as -> _ _. congruence. }
  { intros c c' e' I I' M C'. destruct (CC c' I') as (_ & _ & e1 & o & C1 & _ & _ & D). unfold chg_num in C1. pose proof (cell_fun _ _ _ _ C' C1) as X. injection X as ->.
    destruct D as [(-> & _)|(_ & -> & _)]; [discriminate|]. intros Q. injection Q as Q. apply (NENV c I M). auto. }
  { intros e C. pose proof (cell_fun _ _ _ _ C Z0) as X. injection X as ->. auto. }
  replace (num =? 0) with false in XS by lia. destruct XS as (t0 & t1 & C10 & FX & CT1 & CK1 & (e0' & C0' & NI0) & _).
  assert (CKE : forall k o, k <> env -> cell cache1 k o <-> cell cache k o).
  { intros k o K. apply CK. intros c e I M C Q. rewrite (EENV c e I M C) in Q. injection Q as Q. congruence. }
  assert (t0 = t) by (apply CKE in C10; [|lia]; pose proof (cell_fun _ _ _ _ C10 C0) as Q; injection Q; auto). subst t0.
  assert (CX1 : cell cache1 env x') by (apply CK1; auto; lia).
  assert (OSF : Forall (fun p => wf_top (snd p) /\ exists c e, In c chg /\ fst p = num_of c /\ cell row (num_of c) (SDict e) /\ n_env e = Some env /\ cell cache (num_of c) (snd p)) os).
  { apply Forall_forall. intros [n o] I. apply In_nth_error in I as [k K]. destruct (forall2_nth_r _ _ _ FO k _ K) as (c & KC & (A1 & A2)). cbn [fst snd] in *. apply nth_error_In, filter_In in KC as [IC M].
    destruct (CC c IC) as (_ & _ & e1 & o1 & C1 & _ & C2 & D). unfold chg_num in C1, C2. rewrite (EMB c e1 IC C1) in M. destruct D as [(E & _)|(_ & E & D)]; [rewrite E in M; discriminate|].
    pose proof (cell_fun _ _ _ _ A2 C2) as ->. split; auto. exists c, e1. auto. }
  assert (OSN : map fst os = map num_of (filter (emb row) chg)). { clear -FO. induction FO as [|c p cs os (A & _) _ IH]; cbn [map]; auto. rewrite A, IH. reflexivity. }
  assert (OSD : NoDup (map fst os)) by (rewrite OSN; apply filter_nodup_map; exact ND).
  assert (OSI : forall c e, In c chg -> cell row (num_of c) (SDict e) -> n_env e = Some env -> exists o, cell cache (num_of c) o /\ In (num_of c, o) os).
  { intros c e I C E. assert (M : In c (filter (emb row) chg)) by (apply filter_In; split; auto; rewrite (EMB c e I C), E; auto).
    apply In_nth_error in M as [k K]. destruct (forall2_nth_l _ _ _ FO k _ K) as ([n o] & KO & (A1 & A2)). cbn [fst snd] in *. subst n. exists o. split; auto. eapply nth_error_In; eauto. }
  assert (ON : os <> []). { destruct EX as (c & e & I & C & E). destruct (OSI c e I C E) as (o & _ & IO). intros ->. destruct IO. }
  assert (OW : Forall (fun p => wf_top (snd p)) os) by (eapply Forall_impl; [|exact OSF]; intros a [? _]; auto).
  destruct (pack_ok os sd en ON OW T4) as (e' & PK2). pose proof (eq_trans (eq_sym PK) PK2) as QX. injection QX as ->. clear PK2.
  destruct (pack_finalize os sd en ON OW T4 T2 T3) as (packed & PK2 & _ & FIN). rewrite PK in PK2. injection PK2 as <-.
  set (sd1 := dset K_FirstLine _ sd) in *.
  assert (IOB : is_objstm (PStream sd1 (Some (body os)) e') = true). { unfold is_objstm, sd1. change (B "/Type") with K_Type. rewrite dget_dset_neq, T1 by discriminate. reflexivity. }
  assert (NUMS : map xe_num elems = map num_of l) by (clear -F2; induction F2; cbn; auto; f_equal; auto; eapply placed_num; eauto).
  assert (NDE : NoDup (map xe_num elems)).
  { rewrite NUMS. eapply Permutation_NoDup; [apply Permutation_map; exact PM|]. cbn [map num_of fst snd]. constructor; auto.
    intro I. apply in_map_iff in I as (c & Q & I). rewrite Forall_forall in NN. specialize (NN _ I). lia. }
  assert (PL : forall c, In c chg -> exists e, In e elems /\ placed (P ++ R) row cache1 ni c e).
  { intros c I. assert (IL : In c l) by (eapply Permutation_in; [exact PM|right; auto]). apply In_nth_error in IL as [k K]. destruct (forall2_nth_l _ _ _ F2 k _ K) as (e & KE & PC). exists e. split; auto. eapply nth_error_In; eauto. }
  assert (RGE : forall e z, In e elems -> xe_env e = None -> xe_cnt e = Some z -> 0 < z). { intros e z I EN Q. rewrite Forall_forall in RG. specialize (RG e I). rewrite EN in RG. specialize (RG eq_refl z Q). unfold blen in RG. lia. }
  assert (ENVC : exists c, In c chg /\ num_of c = env) by (apply in_map_iff in EI as (c & Q & I); exists c; auto).
  destruct ENVC as (cE & IE & NE).
  assert (FE : exists sd' data enc z, finalize_stream (PStream sd1 (Some (body os)) e') = Ok (PStream sd' (Some data) (Some enc)) /\ In (mk_xe false env 0 (Some z) None) elems /\ exists v, serialize (PStream sd' (Some data) (Some enc)) = Ok v /\ at_pos (P ++ R) z (object_text env 0 v)).
  { destruct (PL cE IE) as (e & J & PC). destruct (CC cE IE) as (D1 & _ & e1 & o1 & D3 & D4 & D6 & D7). unfold chg_num in *. assert (EN : n_env e1 = None) by (destruct D7 as [(Q & _)|(Q & _)]; [auto|exfalso; apply Q; exact NE]).
    inversion PC as [| g n ce NZ CE1|g n a ce o o' v off ND1 CE1 EN1 CO WV SV AT CN|g n a ce o v env1 ps ND1 CE1 EN1]; subst; cbn [fst snd] in *; try congruence.
    2:{ pose proof (cell_fun _ _ _ _ CE1 D3) as Q. injection Q as ->. congruence. }
    pose proof (cell_fun _ _ _ _ CE1 D3) as Q. injection Q as ->. cbn [num_of fst snd] in *. pose proof (cell_fun _ _ _ _ CO CX1) as ->. unfold written_value in WV. rewrite IOB in WV.
    destruct (FIN o' WV) as (d' & data & enc & -> & _). exists d', data, enc, off. rewrite D4, EN in *. split; [exact WV|]. split; auto. exists v. auto. }
  destruct FE as (sd' & data & enc & zE & FE & JE & vE & SE & AE).
  destruct (FIN _ FE) as (d2 & data2 & enc2 & Q & ED & F1 & FN & KEEP & ENC). injection Q as <- <- <-.
  destruct (CL _ CX' sd' data enc FE) as (BY & CLN1 & CLN2 & CLN3).
  assert (WD : wfv (PDict sd')). { eapply finalize_wfv; [exact FE|]. unfold sd1. apply wfv_dset; [auto|apply name_ok; reflexivity|]. constructor. apply Forall_forall. intros x I. apply in_map_iff in I as (z & <- & _). constructor. }
  assert (PFD : plain_filter sd') by (destruct (simply_plain sd SF) as [Q|(n & [Q Q2] & Q3)]; [left; rewrite KEEP by discriminate; auto|right; exists n; split; auto; split; rewrite KEEP by discriminate; auto]).
  assert (DE : decode_stream (Some enc) sd' = Ok (Some data)).
  { apply plain_decode; auto. rewrite <- ENC. unfold encode_stream. rewrite !KEEP by discriminate. reflexivity. }
  assert (ST : storable (PStream sd' (Some data) (Some enc))) by (constructor; auto; apply plain_notdict; auto).
  assert (GE : good (P ++ R) env zE (PStream (rvd sd') (Some data) (Some enc))).
  { split; [discriminate|]. destruct (valtxt_storable _ ST) as (v' & V). exists (PStream sd' (Some data) (Some enc)), v'. split; auto. destruct V as (V & _). pose proof (eq_trans (eq_sym V) SE) as Q. injection Q as ->. auto. }
  assert (PC0 : cnt = Z.of_nat (length (P ++ bdy))) by (rewrite <- EB; reflexivity).
  pose proof (wfv_nodup _ WD) as NDS. clear cE IE NE.
  exists (P ++ bdy), built, t1, elems, sd', os, data, enc. cbv zeta. rewrite <- PC0. split; [|split; [|split; [exact FX|split; [exact CT1|split]]]].
  - rewrite ER. unfold tail_text. rewrite <- PC0. rewrite <- !app_assoc. reflexivity.
  - rewrite PC0, app_length. unfold blen. lia.
  - constructor.
    + exact NDE.
    + intros e I. apply In_nth_error in I as [k K]. destruct (forall2_nth_r _ _ _ F2 k _ K) as (c & KC & PC). assert (IC : In c (((0, 0), Del) :: chg)) by (eapply Permutation_in; [symmetry; exact PM|eapply nth_error_In; eauto]).
      destruct IC as [<-|IC]; [left; inversion PC; subst; auto; congruence|right]. exists c. split; auto. eapply placed_num; eauto.
    + intros c I. destruct (PL c I) as (e & J & PC). exists e. split; auto. eapply placed_num; eauto.
    + intros c e I C EN NE1. destruct (PL c I) as (x & J & PC). destruct (CC c I) as (D1 & _ & e1 & o1 & D3 & D4 & D6 & D7). unfold chg_num in *. unfold num_of in C, NE1 |- *. pose proof (cell_fun _ _ _ _ C D3) as Q. injection Q as ->.
      assert (SV1 : savable o1) by (destruct D7 as [(_ & [Q|Q])|(_ & Q & _)]; [congruence|auto|congruence]).
      inversion PC as [| g n ce NZ CE1|g n a ce o o' v off ND1 CE1 EN1 CO WV SV AT CN|g n a ce o v env1 ps ND1 CE1 EN1]; subst; cbn [fst snd] in *; try congruence.
      2:{ pose proof (cell_fun _ _ _ _ CE1 D3) as Q. injection Q as ->. congruence. }
      pose proof (cell_fun _ _ _ _ CE1 D3) as Q. injection Q as ->. apply CKE in CO; [|auto]. pose proof (cell_fun _ _ _ _ CO D6) as ->.
      assert (o' = o1) by (unfold written_value in WV; rewrite (proj2 SV1) in WV; auto). subst o'. rewrite EN, D4 in *. exists off, o1. split; auto. split; auto. split; auto. split; [|eapply RGE; eauto; reflexivity].
      split. { pose proof (storable_peq _ (proj1 SV1)) as PQ. intro X. rewrite X in PQ. inversion PQ. subst o1. eapply savable_some; eauto. }
      destruct (valtxt_storable o1 (proj1 SV1)) as (v' & V). exists o1, v'. split; auto. destruct V as (V & _). assert (v' = v) by congruence. subst v'. auto.
    + exists zE. split; auto. split; auto. eapply RGE; eauto; reflexivity.
    + intros c e I C EN. destruct (OSI c e I C EN) as (o & CO & IO). destruct (PL c I) as (x & J & PC). destruct (CC c I) as (D1 & _ & e1 & o1 & D3 & D4 & D6 & D7). unfold chg_num in *. unfold num_of in C, CO, IO |- *. pose proof (cell_fun _ _ _ _ C D3) as Q. injection Q as ->.
      inversion PC as [| g n ce NZ CE1|g n a ce ov o' v off ND1 CE1 EN1 CO1 WV SV AT CN|g n a ce ov v env1 ps ND1 CE1 EN1]; subst; cbn [fst snd] in *; try congruence.
      * pose proof (cell_fun _ _ _ _ CE1 D3) as Q. injection Q as ->. destruct EN1 as [Q|Q]; [congruence|rewrite EN in Q; injection Q as Q; lia].
      * pose proof (cell_fun _ _ _ _ CE1 D3) as Q. injection Q as ->. assert (env1 = env) by congruence. subst env1. rewrite D4 in *. exists ps, o. auto.
    + split; auto.
    + rewrite !dget_rvd by auto. rewrite F1, FN. cbn [option_map rv]. split; auto. split; [eauto|auto].
  - split; [intros k o K1 K2; rewrite CK1 by auto; apply CKE; auto|]. split; auto. exists e0'. auto.
Qed.

Lemma indexed_in e x : In x (indexed_entry e) -> n_num x = xe_num e.
Proof. unfold indexed_entry. destruct (xe_cnt e); [|intros []]. destruct (_ || _); [intros []|]. destruct (xe_env e) as [[|q|q]|]; cbn [In]; intros [<-|[]]; reflexivity. Qed.
Lemma indexed_nodup l : NoDup (map xe_num l) -> NoDup (map n_num (flat_map indexed_entry l)).
Proof.
  induction l as [|e l IH]; cbn [map flat_map]; intro ND; [constructor|]. inversion ND as [|? ? NI ND']; subst. rewrite map_app.
  assert (NI2 : ~ In (xe_num e) (map n_num (flat_map indexed_entry l))).
  { intro I. apply NI. apply in_map_iff in I as (x & Q & I). apply in_flat_map in I as (y & J & I). apply indexed_in in I. apply in_map_iff. exists y. split; auto. congruence. }
  specialize (IH ND'). unfold indexed_entry at 1. destruct (xe_cnt e); [|exact IH]. destruct (_ || _); [exact IH|]. destruct (xe_env e) as [[|q|q]|]; cbn [map app n_num]; constructor; auto.
Qed.
Definition direct_entry (n z : Z) : ient := mk_ient n 0 None None (Some (AInt z)) None None None false None None None None false None.
Definition inside_entry (n env pos : Z) : ient := mk_ient n 0 None None (Some (ATup env pos)) None (Some env) (Some pos) false None None None None false None.

Lemma member_rv env os : forall r, Forall2 (embedded env) os r -> NoDup (map fst os) -> forall n o, In (n, o) os -> member n r = Some (rv o).
Proof.
  induction 1 as [|p e os r (A1 & A2 & A3 & A4) F IH]; intros ND n o I; [destruct I|]. cbn [map] in ND. apply NoDup_cons_iff in ND as [NI ND']. cbn [member].
  assert (NM : forall os r k, Forall2 (embedded env) os r -> ~ In k (map fst os) -> member k r = None).
  { clear - ZL. intros os0 r0 k F0. induction F0 as [|p e os r (A1 & _) _ IH]; cbn [map member In]; intro N; auto. rewrite IH by tauto. rewrite A1. replace (fst p =? k) with false; auto. symmetry. apply Z.eqb_neq. tauto. }
  destruct I as [->|I].
  - cbn [fst snd] in *. rewrite (NM os r n F NI), A1, Z.eqb_refl. now f_equal.
  - rewrite (IH ND' n o I). reflexivity.
Qed.

Lemma packed_loads F pre txt t t1 elems chg cache cache' row env num sd sd' os data enc nf f : zlib_ok ->
  F = (pre ++ txt) ++ tail_text (length pre) -> (100 <= length F)%nat -> blen F < 10 ^ 10 -> (0 < length pre)%nat ->
  format_xref_stream (elems ++ [mk_xe false num 0 (Some (Z.of_nat (length pre))) None]) t nf num = Ok (txt, t1) -> wfv (PDict t) -> simply_filtered t ->
  dget K_XRefStm t = None -> dget K_Prev t = None -> dget K_Size t = Some (PInt (num + 1)) ->
  packed_file F chg cache cache' row env num elems (Z.of_nat (length pre)) sd sd' os data enc ->
  (forall c, In c chg -> 0 < num_of c < num /\ exists e, cell row (num_of c) (SDict e) /\ (n_env e = None \/ n_env e = Some env)) ->
  0 < env < num -> dget K_Length t1 <> Some (PInt 1) ->
  (forall a e, F = a ++ e ++ stream_end (length pre) -> dget K_Length t1 = Some (PInt (blen e + 1)) -> clean e) ->
  exists d2, loads f F = Ok d2 /\ coherent d2 /\
    (forall c e o, In c chg -> cell row (num_of c) (SDict e) -> num_of c <> env -> cell cache (num_of c) o -> exists v, value d2 (num_of c) = Ok v /\ peq o v) /\
    value d2 env = Ok (PStream (rvd sd') (Some data) (Some enc)) /\
    exists t2, cell (d_cache d2) 0 (PDict t2) /\ same_entries K_Prev t1 t2 /\ dget K_Prev t2 = Some (PInt (Z.of_nat (length pre))).
Proof.
  intros ZO EF L1 L2 LP FX W SF NS NP NSZ PF CC EV L0 CL. set (x0 := Z.of_nat (length pre)) in *.
  destruct (stream_section F pre txt _ t nf num t1 ZO FX W (simply_plain _ SF) NS NP EF L1 L2 L0 CL) as (c & xenc & W1 & KE & XC & GX & _). fold x0 in XC, GX.
  set (el := elems ++ [mk_xe false num 0 (Some x0) None]) in *. set (es := flat_map indexed_entry el) in *.
  destruct PF as [P1 P2 P3 P4 (zE & P5 & P5g & P5z) P6 (ON & OD & OF) (K1 & K2 & KD)].
  assert (KIND : forall e, In e elems -> e = mk_xe true 0 65534 None None \/
     (exists n z w, e = mk_xe false n 0 (Some z) None /\ 0 < n < num /\ good F n z w /\ 0 < z) \/
     (exists n pos, e = mk_xe false n 0 (Some pos) (Some env) /\ 0 < n < num)).
  { intros e I. destruct (P2 e I) as [->|(ch & IC & NQ)]; [left; auto|right]. destruct (CC ch IC) as (R & ce & C & [E|E]).
    - left. destruct (Z.eq_dec (num_of ch) env) as [Q|Q].
      + exists env, zE. eexists. split; [apply (NoDup_map_inj xe_num elems P1); auto; cbn [xe_num]; congruence|]. split; [lia|]. split; eauto.
      + destruct (P4 ch ce IC C E Q) as (z & o & J & _ & _ & G & Z0). exists (num_of ch), z, (rvs o). split; [apply (NoDup_map_inj xe_num elems P1); auto|]. auto.
    - right. destruct (P6 ch ce IC C E) as (pos & o & J & _). exists (num_of ch), pos. split; [apply (NoDup_map_inj xe_num elems P1); auto|auto]. }
  assert (EST : forall n z, In (mk_xe false n 0 (Some z) None) el -> 0 < n -> In (direct_entry n z) es).
  { intros n z I N. unfold es. apply in_flat_map. eexists. split; [exact I|]. unfold indexed_entry. cbn [xe_cnt xe_free xe_num xe_env orb]. replace (n =? 0) with false by lia. left. reflexivity. }
  assert (ESI : forall n pos, In (mk_xe false n 0 (Some pos) (Some env)) el -> 0 < n -> In (inside_entry n env pos) es).
  { intros n z I N. unfold es. apply in_flat_map. eexists. split; [exact I|]. unfold indexed_entry. cbn [xe_cnt xe_free xe_num xe_env orb]. replace (n =? 0) with false by lia. destruct env; [lia| |lia]. left. reflexivity. }
  assert (INE : forall e, In e elems -> In e el) by (intros; apply in_or_app; auto).
  assert (INX : In (mk_xe false num 0 (Some x0) None) el) by (apply in_or_app; right; left; auto).
  assert (ESK : forall e, In e es -> (exists n z w, e = direct_entry n z /\ 0 < n <= num /\ good F n z w /\ 0 < z) \/ (exists n pos, e = inside_entry n env pos /\ 0 < n < num)).
  { intros e I. apply in_flat_map in I as (x & J & I). apply in_app_or in J as [J|[<-|[]]].
    - destruct (KIND x J) as [->|[(n & z & w & -> & R & G & Z0)|(n & pos & -> & R)]]; [destruct I| |].
      + unfold indexed_entry in I. cbn [xe_cnt xe_free xe_num xe_env orb] in I. replace (n =? 0) with false in I by lia. destruct I as [<-|[]]. left. exists n, z, w. split; [reflexivity|]. split; [lia|auto].
      + unfold indexed_entry in I. cbn [xe_cnt xe_free xe_num xe_env orb] in I. replace (n =? 0) with false in I by lia. right. exists n, pos. split; auto. destruct env; [lia| |lia]. destruct I as [<-|[]]. reflexivity.
    - unfold indexed_entry in I. cbn [xe_cnt xe_free xe_num xe_env orb] in I. replace (num =? 0) with false in I by lia. destruct I as [<-|[]]. left. exists num, x0. eexists. split; [reflexivity|]. split; [lia|]. split; [exact GX|unfold x0; lia]. }
  assert (ND : NoDup (map n_num es)).
  { apply indexed_nodup. unfold el. rewrite map_app. cbn [map xe_num]. apply NoDup_rev in P1. rewrite <- (rev_involutive (map xe_num elems ++ [num])). apply NoDup_rev. rewrite rev_app_distr. cbn [rev app].
    constructor; [|exact P1]. rewrite <- in_rev, in_map_iff. intros (e & Q & I). destruct (KIND e I) as [->|[(n & z & w & -> & R & _)|(n & pos & -> & R)]]; cbn [xe_num] in Q; lia. }
  assert (IEX : In (direct_entry num x0) es) by (apply EST; auto; lia).
  assert (IEE : In (direct_entry env zE) es) by (apply EST; [auto|lia]).
  assert (XR : x0 < blen F). { apply good_range in GX. lia. }
  assert (FA : Forall (fun e => 1 <= n_num e <= num /\ n_next e = None /\ sure (blen F) es e) es).
  { apply Forall_forall. intros e I. destruct (ESK e I) as [(n & z & w & -> & R & G & Z0)|(n & pos & -> & R)].
    - split; [cbn; lia|]. split; [reflexivity|]. left. split; [reflexivity|]. exists z. split; [reflexivity|]. apply (good_range _ _ _ _ G).
    - split; [cbn; lia|]. split; [reflexivity|]. right. exists env, pos, (direct_entry env zE), zE. repeat (split; [first [reflexivity|assumption]|]). apply (good_range _ _ _ _ P5g). }
  pose proof (wfv_nodup _ W1) as ND1.
  destruct (load_one F f (stream_head x0 num) es (Z.of_nat (length (pre ++ txt))) num x0 num ((pre ++ txt) ++ B "startxref" ++ [10] ++ dec x0 ++ [10]) (rvd t1)) as (q & d2 & re & LD & DI & RE & LQ & DD & LC & C0 & CN & CA & CD & CI); auto.
  { unfold x0. lia. } { lia. } { exists (direct_entry num x0). split; auto. }
  { exists (direct_entry env zE). split; auto. cbn. lia. }
  { rewrite EF at 1. unfold tail_text. rewrite <- !app_assoc. reflexivity. }
  { intros e x E1 E2 E3. eapply trailer_good; [exact GX|lia|exact E1|exact E2|exact E3]. }
  { rewrite rvd_keys. apply NoDup_rev. auto. }
  { change K_DecodeParms' with K_DecodeParms. rewrite dget_rvd by auto. rewrite KE by (intros [Q|[Q|[Q|Q]]]; discriminate). rewrite (proj1 SF). reflexivity. }
  { rewrite dget_rvd by auto. rewrite KE by (intros [Q|[Q|[Q|Q]]]; discriminate). rewrite NS. reflexivity. }
  set (re' := SDict re :: skipn 1 q) in *. set (p := PvSingle F) in *.
  assert (CR : forall n x, 0 < n -> cell q n x -> cell re' n x).
  { intros n x N [_ C]. split; [lia|]. unfold re'. destruct q as [|q0 q']; [destruct (Z.to_nat n); discriminate|]. cbn [skipn]. destruct (Z.to_nat n) eqn:E; [lia|]. exact C. }
  assert (OR : forall r, open_row d2 r -> r = re'). { intros r [l Q]. rewrite DI in Q. change [q; re'] with ([q] ++ [re']) in Q. apply app_inj_tail in Q as [_ Q]. auto. }
  assert (PR : forall r, provider d2 r -> r = p). { intros r (l & x & Q & E). rewrite DD in Q. apply (app_inj_tail [_] l) in Q as [_ Q]. subst x. cbn in E. congruence. }
  assert (OR' : open_row d2 re') by (exists [q]; exact DI). assert (PR' : provider d2 p) by (eexists [_], _; split; [exact DD|reflexivity]).
  assert (LC2 : length (d_cache d2) = Z.to_nat (num + 1)) by congruence.
  assert (CC2 : forall n, 0 < n <= num -> cell (d_cache d2) n PNone).
  { intros n N. destruct (nth_error (d_cache d2) (Z.to_nat n)) as [o|] eqn:E; [|apply nth_error_None in E; lia]. assert (C : cell (d_cache d2) n o) by (split; [lia|exact E]). rewrite (CN n o ltac:(lia) C) in C. exact C. }
  assert (DC : forall n z w, In (direct_entry n z) es -> 0 < n -> good F n z w -> exists e, cell re' n (SDict e) /\ n_del e = false /\ n_env e = None /\ parse_at p e = Ok w).
  { intros n z w I N G. destruct (CD _ z I eq_refl eq_refl) as (nx & LT & C). eexists. split; [apply CR; [exact N|exact C]|]. split; [reflexivity|]. split; [reflexivity|]. eapply good_parse; [exact G|reflexivity|reflexivity|exact LT]. }
  assert (IC : forall n pos, In (inside_entry n env pos) es -> 0 < n -> exists e, cell re' n (SDict e) /\ n_del e = false /\ n_env e = Some env).
  { intros n pos I N. destruct (CI _ env pos I eq_refl) as (nx & loc & C). eexists. split; [apply CR; [exact N|exact C]|]. split; reflexivity. }
  destruct (DC env zE _ IEE ltac:(lia) P5g) as (ce & CE1 & CE2 & CE3 & CE4).
  destruct (object_stream_read (rvd sd') os env ON) as (l & PO & FO); [apply Forall_forall; intros x I; rewrite Forall_forall in OF; apply (OF x I)|exact K1|exact K2|].
  rewrite <- KD in PO.
  assert (SI : stream_intact re' p (d_cache d2) env).
  { exists ce, (rvd sd'), (Some data), (Some enc), l. split; [lia|]. split; [exact CE1|]. split; [exact CE2|]. split; [exact CE3|]. split; [exact CE4|]. split; [exact PO|]. split; [left; apply CC2; lia|].
    apply Forall_forall. intros x I. apply In_nth_error in I as (kx & I). destruct (forall2_nth_r _ _ _ FO _ _ I) as (y & I' & (A1 & _)). apply nth_error_In in I'. clear I. rename I' into I. rewrite Forall_forall in OF. destruct (OF y I) as (_ & ch & e & I1 & I2 & I3 & I4 & _).
    destruct (P6 ch e I1 I3 I4) as (pos & o & J & _). destruct (CC ch I1) as (R & _). destruct (IC (num_of ch) pos) as (ne & N1 & N2 & N3); [apply ESI; [auto|lia]|lia|].
    exists (num_of ch), ne, PNone. rewrite <- I2 in *. split; [exact A1|]. split; [lia|]. split; [exact N1|]. split; [exact N2|]. split; [exact N3|]. split; [apply CC2; lia|auto]. }
  assert (CO : coherent d2).
  { intros r pp O1 O2 n e k C D1 D2. apply OR in O1. apply PR in O2. subst r pp. destruct (Z.eq_dec n 0) as [->|N0].
    - destruct C as [_ C]. cbn in C. injection C as <-. congruence.
    - assert (QC : cell q n (SDict e)). { destruct C as [Z0 C]. split; [lia|]. unfold re' in C. destruct q as [|q0 q']; [cbn in C; destruct (Z.to_nat n) eqn:E; [lia|destruct n0; discriminate]|]. cbn [skipn] in C. destruct (Z.to_nat n) eqn:E; [lia|]. exact C. }
      assert (N : 1 <= n <= num). { destruct QC as [Z0 QC]. assert (Q : nth_error q (Z.to_nat n) <> None) by congruence. apply nth_error_Some in Q. lia. }
      assert (k = env) as ->; [|exact SI].
      destruct (in_dec Z.eq_dec n (map n_num es)) as [I|I]; [|pose proof (CA n N I) as Q; pose proof (cell_fun _ _ _ _ Q QC); discriminate].
      apply in_map_iff in I as (x & Q & I). destruct (ESK x I) as [(m & z & w & -> & R & G & Z0)|(m & pos & -> & R)]; cbn [n_num direct_entry inside_entry] in Q; subst m.
      + destruct (DC n z w I ltac:(lia) G) as (e' & C' & _ & E' & _). pose proof (cell_fun _ _ _ _ C' C) as Q. injection Q as ->. congruence.
      + destruct (IC n pos I ltac:(lia)) as (e' & C' & _ & E'). pose proof (cell_fun _ _ _ _ C' C) as Q. injection Q as ->. congruence. }
  assert (VD : forall n z w, In (direct_entry n z) es -> 0 < n <= num -> good F n z w -> value d2 n = Ok w).
  { intros n z w I N G. destruct (DC n z w I ltac:(lia) G) as (e & C & E1 & E2 & E3). rewrite (value_is d2 n re' p OR' PR' CO ltac:(lia)). unfold value_of.
    rewrite (proj2 (pyget_cell re' n _ ltac:(lia)) C). cbn [bind deleted_in]. rewrite E1, (proj2 (pyget_cell (d_cache d2) n _ ltac:(lia)) (CC2 n N)). cbn [bind is_none]. unfold disk. rewrite (proj2 (pyget_cell re' n _ ltac:(lia)) C). cbn [bind]. replace (n =? 0) with false by lia. rewrite E2. exact E3. }
  exists d2. split; [exact LD|]. split; [exact CO|]. split; [|split; [apply (VD env zE _ IEE ltac:(lia) P5g)|]].
  - intros ch e o I C NE CO'. destruct (CC ch I) as (R & e2 & C2 & EE). pose proof (cell_fun _ _ _ _ C2 C) as Q. injection Q as ->. destruct EE as [E|E].
    + destruct (P4 ch e I C E NE) as (z & o' & J & C' & SV & G & Z0). pose proof (cell_fun _ _ _ _ C' CO') as ->. exists (rvs o). split; [|apply storable_peq; apply SV].
      apply (VD _ z); [apply EST; [auto|lia]|lia|exact G].
    + destruct (P6 ch e I C E) as (pos & o' & J & C' & IO). pose proof (cell_fun _ _ _ _ C' CO') as ->. destruct (IC (num_of ch) pos) as (ne & N1 & N2 & N3); [apply ESI; [auto|lia]|lia|].
      exists (rv o). split.
      * rewrite (value_is d2 (num_of ch) re' p OR' PR' CO ltac:(lia)). unfold value_of. rewrite (proj2 (pyget_cell re' (num_of ch) _ ltac:(lia)) N1). cbn [bind deleted_in]. rewrite N2, (proj2 (pyget_cell (d_cache d2) (num_of ch) _ ltac:(lia)) (CC2 (num_of ch) ltac:(lia))). cbn [bind is_none]. unfold disk.
        rewrite (proj2 (pyget_cell re' (num_of ch) _ ltac:(lia)) N1). cbn [bind]. replace (num_of ch =? 0) with false by lia. rewrite N3, (proj2 (pyget_cell re' env _ ltac:(lia)) CE1). cbn [bind as_dict]. rewrite CE4. cbn [bind]. match goal with |- context [parse_object_stream ?a ?b ?c] => replace (parse_object_stream a b c) with (@Ok (list embobj) l) by (symmetry; exact PO) end. cbn [bind]. rewrite (member_rv env os l FO OD _ _ IO). reflexivity.
      * rewrite Forall_forall in OF. destruct (OF _ IO) as (WT & _). cbn [snd] in WT. destruct WT as [ov Wv _|sv _]; [now apply wfv_peq|cbn; constructor].
  - eexists. split; [exact C0|]. split; [|apply dget_dset_eq]. intros k NK. rewrite dget_dset_neq by auto.
    destruct (list_eq_dec Z.eq_dec k K_Size) as [->|NK2].
    + rewrite dget_dset_eq, KE, NSZ by (intros [Q|[Q|[Q|Q]]]; discriminate). split; [split; discriminate|]. intros a b Qa Qb. injection Qa as <-. injection Qb as <-. constructor.
    + rewrite dget_dset_neq by auto. exact (same_rvd K_Prev _ W1 k NK).
Qed.

Lemma build_dicts chg cur cache sp z R newi cache' : Forall (fun c => 1 <= num_of c) chg -> 0 < z ->
  build_revision_byte_stream chg cur cache sp (Some z) = Ok (R, newi, cache') ->
  forall k s, 0 < k -> cell newi k s -> exists s', cell cur k s' /\ (s = s' \/ exists e, s = SDict e).
Proof.
  intros NN Z0 H k s K C. unfold build_revision_byte_stream in H. set (l := ((0, 0), Del) :: chg) in *.
  assert (NL : Forall (fun c => 0 <= num_of c) l). { constructor; [cbn; lia|]. eapply Forall_impl; [|exact NN]. cbn. lia. }
  destruct (embed_changes cur cache l) as [[c1 el1]| |]; cbn [bind] in H; try discriminate.
  destruct (write_changes cur c1 cur (sp + 1) None l) as [[[[[fr el2] ni] cnt] la]| |] eqn:EW; cbn [bind] in H; try discriminate.
  destruct (write_cells _ _ _ _ _ _ _ _ _ _ _ NL EW) as [LN CN].
  destruct (pyget c1 0) as [c0| |]; cbn [bind] in H; try discriminate. replace (truthy (Some z)) with true in H by (cbn [truthy]; lia). cbn [negb of_opt bind] in H.
  destruct (match c0 with PDict _ => _ | _ => _ end) as [d0| |]; cbn [bind] in H; try discriminate.
  destruct (format_xref_stream _ d0 _ z) as [[built d1]| |]; cbn [bind] in H; try discriminate.
  destruct la as [blk|]; cbn [of_opt bind] in H; try discriminate.
  destruct (upd_slot ni z _) as [n1| |] eqn:E1; cbn [bind] in H; try discriminate.
  destruct (upd_slot n1 0 _) as [n2| |] eqn:E2; cbn [bind] in H; try discriminate.
  destruct (pyset c1 0 _) as [c2| |]; cbn [bind] in H; try discriminate. injection H as _ <- _.
  apply upd_slot_inv in E1 as (e1 & A1 & A2 & A3); [|lia]. apply upd_slot_inv in E2 as (e2 & B1 & B2 & B3); [|lia].
  pose proof (cell_range _ _ _ A1). pose proof (cell_range _ _ _ B1).
  rewrite B2 in C. rewrite cell_lset in C by lia. destruct C as [[Q _]|[_ C]]; [lia|].
  rewrite A2 in C. rewrite cell_lset in C by lia.
  assert (X : forall s, cell ni k s -> exists s', cell cur k s' /\ (s = s' \/ exists e, s = SDict e)).
  { intros s1 C1. destruct (CN k s1 C1) as (s' & C' & [->|(c & e & e' & _ & _ & _ & _ & -> & _)]); exists s'; split; auto. right. eauto. }
  destruct C as [[-> ->]|[_ C]]; [|auto]. destruct (X _ A1) as (s' & C' & _). exists s'. split; auto. right. eauto.
Qed.

Theorem packed_commit d env d1 : packable d env -> commit d = Ok d1 ->
  exists F, writefile d = Ok (F, d1) /\ writefile d1 = Ok (F, d1) /\ forall fuel, zlib_ok ->
  (100 <= length F)%nat -> blen F < 10 ^ 10 -> (forall o, cell (d_cache d1) env o -> completes_clean o) -> xref_clean d1 F ->
  exists d2, loads fuel F = Ok d2 /\ coherent d2 /\
    (forall n o, 0 < n -> n <> env -> value d n = Ok o -> exists v, value d2 n = Ok v /\ peq o v) /\
    (exists t t1 t2, cell (d_cache d) 0 (PDict t) /\ cell (d_cache d1) 0 (PDict t1) /\ cell (d_cache d2) 0 (PDict t2) /\
       (forall k, ~ xref_entry k -> dget k t1 = dget k t) /\ forall k0, same_entries k0 t1 t2).
Proof.
  intros [(row & p & DI & DD & LC & (e0 & C0 & EE0 & XS0 & D0 & XT0) & (nE & eE & CnE & EnE) & CE) (sd & en & E0 & CSE & WS & T1 & T2 & T3 & T4 & SF) (t & CT & WT & TP & TX & TF)] CM.
  assert (TR : tidy row). { intros n s N C l ->. destruct (CE n _ N C) as (e & o & Q & _). discriminate. }
  assert (S0 : exists s0, cell row 0 s0 /\ s0 <> SNone) by (exists (SDict e0); split; [auto|discriminate]).
  destruct (changes_single d row DI TR S0) as (chg & EC & ND & IC).
  assert (NX : forall n, 0 < n -> ~ xref_object row n). { intros n N (e & C & Q). pose proof (cell_fun _ _ _ _ C C0) as Y. injection Y as ->. rewrite XS0 in Q. injection Q as Q. lia. }
  assert (ICA : forall c, In c chg -> snd c = Add /\ 0 < chg_num c < Z.of_nat (length row) /\ exists e, cell row (chg_num c) (SDict e)).
  { intros [[g i] a] I. apply IC in I as (-> & PI & e & AT & _). cbn [snd chg_num fst]. assert (R : i < Z.of_nat (length row)) by (destruct (Z_lt_ge_dec i (Z.of_nat (length row))); auto; rewrite at_num_out in AT by lia; discriminate).
    split; auto. split; [lia|]. exists e. rewrite <- AT. apply at_num_in. lia. }
  assert (INC : forall n e, 0 < n -> cell row n (SDict e) -> In n (map chg_num chg)).
  { intros n e N C. apply in_map_iff. exists ((n_gen e, n), Add). split; [reflexivity|]. apply IC. split; auto. split; auto. exists e. split; [apply at_num_cell; auto; lia|]. auto. }
  pose proof (cell_range _ _ _ CSE) as RE.
  assert (CEE : exists e, cell row env (SDict e)).
  { destruct (nth_error row (Z.to_nat env)) as [s|] eqn:Q; [|apply nth_error_None in Q; lia]. assert (C : cell row env s) by (split; [lia|auto]). destruct (CE env s E0 C) as (e & o & -> & _). eauto. }
  destruct CEE as (eV & CEV). pose proof (INC _ _ E0 CEV) as IEV.
  assert (NC : chg <> []) by (intros ->; destruct IEV).
  assert (NE0 : 0 < nE). { pose proof (cell_range _ _ _ CnE). destruct (Z.eq_dec nE 0) as [->|]; [|lia]. pose proof (cell_fun _ _ _ _ CnE C0) as Q. injection Q as ->. congruence. }
  destruct (commit_inv d chg d1 EC NC CM) as (lx & row0 & t0 & x0 & row1 & x & dx & dl & dl' & row' & cache' & pe & t3 & fd & R2 & T0 & X2 & RX & D2 & CL & PE & T3c & FD' & ->).
  assert (lx = [] /\ row0 = row) as [-> ->]. { rewrite DI in R2. apply (app_inj_tail [] lx) in R2 as [<- <-]. auto. }
  pose proof (cell_fun _ _ _ _ T0 CT) as Q. injection Q as ->.
  assert (x0 = Some (-1)). { unfold first_xsn in X2. rewrite DI in X2. change (pyget [row] 0) with (@Ok (list slot) row) in X2. cbn [bind] in X2. rewrite (proj2 (pyget_cell row 0 _ ltac:(lia)) C0) in X2. cbn [bind] in X2. congruence. }
  subst x0. set (num := Z.of_nat (length row)) in *.
  assert (LR : (1 <= length row)%nat) by (pose proof (cell_range _ _ _ C0); lia).
  destruct (commit_row_cells row _ _ row1 x LR ltac:(intros _; exists (-1); auto) RX) as [(_ & _ & Q)|(_ & -> & L1 & e & e1 & A1 & A2 & A3 & A4)]; [congruence|].
  pose proof (cell_fun _ _ _ _ A1 C0) as Q. injection Q as ->. fold num in A3, A4.
  assert (EE1 : n_env e1 = None /\ n_xt e1 = None).
  { cbn [truthy] in RX. change (negb (-1 =? 0)) with true in RX. cbn [commit_row] in RX. change (-1 =? -1) with true in RX. cbv iota beta in RX.
    destruct (upd_slot _ 0 _) as [rr| |] eqn:U in RX; cbn [bind] in RX; try discriminate. injection RX as ->. apply upd_slot_inv in U as (u & U1 & U2 & U3); [|lia].
    assert (u = e0). { apply cell_snoc in U1 as [U1|[Q _]]; [|lia]. pose proof (cell_fun _ _ _ _ U1 C0). congruence. }
    subst u. pose proof (cell_range _ _ _ U1). rewrite U2 in A2. rewrite cell_lset in A2 by lia. destruct A2 as [[_ Q]|[Q _]]; [|congruence]. injection Q as ->. auto. }
  destruct EE1 as [EE1 XT1].
  assert (dx = [] /\ dl = mk_datum None None (Some p)) as [-> ->]. { rewrite DD in D2. apply (app_inj_tail [] dx) in D2 as [<- <-]. auto. }
  set (tc := closing_trailer (Some (-1)) (Z.of_nat (length row1)) t) in *.
  assert (ETC : tc = dset K_Size (PInt (num + 1)) t). { unfold tc, closing_trailer. change K_DecodeParms' with K_DecodeParms. rewrite (proj1 TF), andb_false_r. f_equal. f_equal. lia. }
  inversion CL as [c Q|v b ni' c' Ecut L1' EB|idx b ni' c' q Ecut L1' EI EB Eq NB]; subst dl' row' cache'; [discriminate| |rewrite DI in L1'; cbn in L1'; congruence].
  set (P := W_header ++ v) in *. set (cache1 := lset (d_cache d) 0 (PDict tc)) in *.
  pose proof (cell_range _ _ _ CT) as RT.
  assert (CK : forall k o, cell cache1 k o <-> (k = 0 /\ o = PDict tc) \/ (k <> 0 /\ cell (d_cache d) k o)). { intros k o. unfold cache1. change 0%nat with (Z.to_nat 0). apply cell_lset. lia. }
  set (F := P ++ b) in *.
  assert (NNC : Forall (fun c => 1 <= num_of c) chg) by (apply Forall_forall; intros c I; destruct (ICA c I) as (_ & Q & _); unfold chg_num in Q; unfold num_of; lia).
  assert (NUM : 0 < num) by lia.
  assert (DIC : forall k s, 0 < k -> cell ni' k s -> forall a l, s <> SList (a :: l)).
  { intros k s K C a l ->. destruct (build_dicts _ _ _ _ _ _ _ _ NNC NUM EB k _ K C) as (s' & C' & [<-|(e & Q)]); [|discriminate].
    apply A4 in C'; [|lia]. destruct C' as [C'|[_ Q]]; [exact (TR k _ K C' _ eq_refl)|discriminate]. }
  set (d1 := mk_doc _ _ _) in *.
  assert (LNI : (1 <= length ni')%nat). { destruct PE as [PE|(l & PE & _)]; pose proof (cell_range _ _ _ PE); lia. }
  assert (CH1 : changes d1 = Ok []). { apply (changes_none d1 [] ni' (revision_entry d (Some (-1)))); auto. }
  assert (CM1 : commit d1 = Ok d1) by (unfold commit; rewrite CH1; reflexivity).
  assert (WF : forall d', commit d' = Ok d1 -> writefile d' = Ok (F, d1)).
  { intros d' Q. unfold writefile. rewrite Q. cbn [bind]. unfold d1. cbn [d_index d_data app length Nat.ltb Nat.leb firstn eof_revisions dt_cut bind skipn Nat.sub fragments dt_bdata of_opt]. rewrite app_nil_r. reflexivity. }
  exists F. split; [auto|]. split; [auto|]. intros fuel ZO L100 L10 CLE XCL.
  assert (CLE' : forall o, cell c' env o -> completes_clean o).
  { intros o C. apply CLE. unfold d1. cbn [d_cache]. pose proof (cell_range _ _ _ T3c). change 0%nat with (Z.to_nat 0). apply cell_lset; [lia|]. right. split; [lia|auto]. }
  assert (ROW1 : forall n s, 0 < n < num -> cell row1 n s <-> cell row n s). { intros n s N. rewrite A4 by lia. split; [intros [C|[Q _]]; [auto|lia]|auto]. }
  assert (WTC : wfv (PDict tc)). { rewrite ETC. apply wfv_dset; [auto|apply name_ok; reflexivity|constructor]. }
  destruct (packed_build P chg row1 cache1 num b ni' c' env sd en tc ZO EB) as (pre & txt & t1 & elems & sd' & os & data & enc & PB); auto.
  { apply CK. auto. }
  { intros c I. destruct (ICA c I) as (Q1 & Q2 & e & Q3). split; [congruence|]. split; [auto|]. destruct (CE _ _ (proj1 Q2) Q3) as (e' & o & Y & Y2 & _ & Y6 & Y7). injection Y as <-.
    exists e, o. split; [apply ROW1; auto|]. split; [auto|]. split; [apply CK; right; split; [lia|auto]|auto]. }
  { pose proof (INC _ _ NE0 CnE) as I. apply in_map_iff in I as (c & Q & I). exists c, eE. split; [auto|]. rewrite Q. split; [|auto]. apply ROW1; auto. split; [auto|]. pose proof (cell_range _ _ _ CnE). lia. }
  { apply CK. right. split; [lia|exact CSE]. }
  { exists e1. auto. }
  cbv zeta in PB. destruct PB as (EF & LP & FX & CT1 & PF & CKC & LNI2 & (e0' & C0' & NI0)). fold F in EF, PF.
  pose proof (cell_fun _ _ _ _ C0' A2) as Q. injection Q as ->. pose proof (cell_fun _ _ _ _ T3c CT1) as Q. injection Q as ->.
  set (x0 := Z.of_nat (length pre)) in *.
  assert (PEQ : prev_pos pe = PInt x0).
  { assert (pe = with_next (Some (x0 + blen txt)) (with_pos (Some (AInt x0)) (with_xs (Some x0) e1))). { destruct PE as [PE|(l & PE & _)]; pose proof (cell_fun _ _ _ _ PE NI0); congruence. }
    subst pe. unfold prev_pos. cbn [n_xt n_xs with_next with_pos with_xs]. rewrite XT1. reflexivity. }
  assert (SFC : simply_filtered tc). { rewrite ETC. destruct TF as [Q1 Q2]. split; rewrite dget_dset_neq by discriminate; auto. }
  assert (TXC : dget K_XRefStm tc = None) by (rewrite ETC, dget_dset_neq by discriminate; auto).
  assert (TPC : dget K_Prev tc = None) by (rewrite ETC, dget_dset_neq by discriminate; auto).
  assert (KE : forall k, ~ K_own k -> dget k t1 = dget k tc).
  { destruct (format_stream_inv _ _ _ _ _ _ FX) as (? & ? & ? & ? & ? & ? & _ & _ & _ & _ & _ & -> & _). intros k NK. rewrite xref_entries_get. unfold K_own in NK.
    rewrite !(proj2 (beqb_neq _ _)) by tauto. reflexivity. }
  assert (OT : opening_trailer pe t1 = dset K_Prev (PInt x0) t1).
  { unfold opening_trailer. rewrite PEQ. unfold dhas. rewrite dget_dset_neq, KE by (discriminate || (intros [Q|[Q|[Q|Q]]]; discriminate)). rewrite TXC. reflexivity. }
  assert (CT2 : cell (d_cache d1) 0 (PDict (dset K_Prev (PInt x0) t1))).
  { unfold d1. cbn [d_cache]. pose proof (cell_range _ _ _ T3c). change 0%nat with (Z.to_nat 0). rewrite <- OT. apply cell_lset; [lia|]. auto. }
  destruct (packed_loads F pre txt tc t1 elems chg cache1 c' row1 env num sd sd' os data enc (circular_deleted chg) fuel ZO EF L100 L10) as (d2 & LD & CO & VN & VE & t2 & CT3 & SE & PR); auto.
  { unfold P in LP. unfold blen in LP. rewrite app_length in LP. change (length W_header) with 5%nat in LP. unfold x0 in LP. lia. }
  { rewrite ETC. apply dget_dset_eq. }
  { intros c I. destruct (ICA c I) as (Q1 & Q2 & e & Q3). split; [exact Q2|]. exists e. split; [apply ROW1; auto|]. destruct (CE _ _ (proj1 Q2) Q3) as (e' & o & Y & _ & _ & _ & Y7). injection Y as <-. destruct Y7 as [(Y7 & _)|(_ & Y7 & _)]; auto. }
  { unfold num. lia. }
  { intro Q. destruct (XCL _ x0 1 CT2 (dget_dset_eq _ _ _)) as [Q2 _]; [rewrite dget_dset_neq by discriminate; exact Q|congruence]. }
  { intros a e Q1 Q2. destruct (XCL _ x0 (blen e + 1) CT2 (dget_dset_eq _ _ _)) as [_ Q3]; [rewrite dget_dset_neq by discriminate; exact Q2|]. apply (Q3 a e); [|auto]. exact Q1. }
  exists d2. split; [exact LD|]. split; [exact CO|]. split.
  - intros n o N NE V. assert (OR : open_row d row) by (exists []; exact DI). assert (PR1 : exists p, provider d p) by (exists p, [], (mk_datum None None (Some p)); split; auto).
    assert (R : n < num). { destruct (Z_lt_ge_dec n num) as [|G]; [auto|]. exfalso. revert V. unfold value, get_object. rewrite (open_last _ _ OR). destruct PR1 as [p1 PR1]. rewrite (provider_fdata _ _ PR1). cbn [bind]. unfold memoize.
      destruct (cell_dec row n ltac:(lia)) as [(y & Y)|Y]; [pose proof (cell_range _ _ _ Y); lia|]. rewrite Y. discriminate. }
    destruct (nth_error row (Z.to_nat n)) as [s|] eqn:Q; [|apply nth_error_None in Q; lia]. assert (C : cell row n s) by (split; [lia|auto]). destruct (CE n s N C) as (e & o' & -> & Y2 & Y4 & Y6 & Y7).
    assert (o' <> PNone). { destruct Y7 as [(_ & [Y|Y])|(_ & _ & Y)]; [congruence|now apply savable_some|]. intros ->. inversion Y as [? W' N'|]; subst. inversion W'. }
    rewrite (value_cached d row e n o' OR PR1 ltac:(lia) C Y4 Y6) in V by auto. injection V as <-.
    pose proof (INC n e N C) as I. apply in_map_iff in I as (c & Qc & I). change (num_of c = n) in Qc. subst n. destruct (VN c e o' I) as (v' & V1 & V2); [apply ROW1; [lia|exact C]|exact NE|apply CK; right; split; [lia|exact Y6]|].
    exists v'. auto.
  - exists t, (dset K_Prev (PInt x0) t1), t2. split; [exact CT|]. split; [exact CT2|]. split; [exact CT3|]. split.
    + intros k NK. unfold xref_entry in NK. rewrite dget_dset_neq by tauto. rewrite KE by (intros [Q|[Q|[Q|Q]]]; tauto). rewrite ETC. apply dget_dset_neq. tauto.
    + intros k0 k _. destruct (list_eq_dec Z.eq_dec k K_Prev) as [->|NK].
      * rewrite dget_dset_eq, PR. split; [split; discriminate|]. intros a0 b0 Q1 Q2. injection Q1 as <-. injection Q2 as <-. constructor.
      * rewrite dget_dset_neq by auto. apply SE. auto.
Qed.
End WithZlib.
