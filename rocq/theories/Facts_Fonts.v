(* Proofs about the fonts of pages *)
From Coq Require Import String QArith Qcanon Sorted Permutation.
From Verif Require Import PyBase Model_Filters Model_Objects Model_Filestruct Model_Text Model_Docstruct Model_Api Model_Graphics Model_Layout Model_Fonts.
From Verif Require Import Spec_Objects Spec_Filestruct Spec_Docstruct Spec_Pages Spec_Text Spec_Layout Spec_Calls Spec_Fonts.
From Verif Require Import Facts_Base Facts_Obj Facts_Doc Facts_Edit Facts_Text Facts_Pages Facts_Layout Facts_Calls.
From Coq Require Import ZifyBool ZifyNat.
Open Scope Z_scope.

Section WithZlib.
Context {ZL : Zlib}.

Lemma deref_same d d1 o v : same_values d d1 -> deref d o v -> deref d1 o v.
Proof. intros R H. destruct H as [g n v N V|v NR]; [|now apply De_val]. apply De_ref; [auto|]. now rewrite (R n N). Qed.
Lemma same_sym d d1 : same_values d d1 -> same_values d1 d.
Proof. intros R n N. symmetry. now apply R. Qed.
Lemma ro_same d d1 : read_only d d1 -> same_values d d1.
Proof. intros R n N. now apply (ro_values _ _ R). Qed.
Lemma widths_same d d1 f w : same_values d d1 -> widths_rule d f w -> widths_rule d1 f w.
Proof.
  intros R H. destruct H as [a l b first H1 H2 H3 H4 H5 H6|a x r y b ds dw H1 H2 H3 H4 H5 H6 H7 H8 H9 H10|H1 H2 H3].
  - eapply Wr_simple; eauto using deref_same.
  - eapply Wr_descendant; eauto using deref_same. destruct H9 as [H9|(o & O1 & O2)]; [left; auto|right; exists o; eauto using deref_same].
  - now apply Wr_default.
Qed.
Lemma text_same d d1 f dec : same_values d d1 -> text_rule d f dec -> text_rule d1 f dec.
Proof. intros R H. destruct H; [eapply Tr_map|eapply Tr_encoding]; eauto using deref_same. Qed.
Lemma usable_same d d1 o f : same_values d d1 -> usable d o f -> usable d1 o f.
Proof. intros R [H1 H2 H3 (w & H4) (t & H5)]. constructor; eauto using deref_same, widths_same, text_same. Qed.

Lemma nth_500 m c : nth m (repeat (PInt 500) c) PNone = PInt 500 \/ (c <= m)%nat.
Proof. revert m. induction c as [|c IH]; intros m; cbn [repeat]; [right; lia|]. destruct m as [|m]; cbn [nth]; [auto|]. destruct (IH m); [auto|right; lia]. Qed.
Lemma width_spec d f w : coherent d -> widths_rule d f w -> exists w' d1, char_width_of d f = Ok (w', d1) /\ read_only d d1 /\ widths_rule d f w'.
Proof.
  intros C H. pose proof H as HR. unfold char_width_of. destruct H as [a l b first H1 H2 H3 H4 H5 H6|a x r y b ds dw H1 H2 H3 H4 H5 H6 H7 H8 H9 H10|H1 H2 H3].
  - change (B "/Widths") with K_Widths in *. change (B "/FirstChar") with K_FirstChar in *. rewrite H1, H2, H4.
    destruct (deref_get d a _ C H3) as (d1 & G & R). rewrite G. cbn [bind]. destruct (deref_get d1 b _ (ro_coherent _ _ R) (deref_ro _ _ _ _ R H5)) as (d2 & G2 & R2). rewrite G2. cbn [bind widths_of].
    eexists _, d2. split; [reflexivity|]. split; [eapply read_only_trans; eauto|]. eapply Wr_simple; eauto. intro c. apply simple_widths.
  - change (B "/Widths") with K_Widths in *. change (B "/DescendantFonts") with K_Descendants in *. change (B "/W") with K_W in *. change (B "/DW") with K_DW in *.
    rewrite H1, H2, H3. cbn [obj_truthy]. destruct (deref_get d a _ C H4) as (d1 & G & R). rewrite G. cbn [bind].
    destruct (deref_get d1 x _ (ro_coherent _ _ R) (deref_ro _ _ _ _ R H5)) as (d2 & G2 & R2). rewrite G2. cbn [bind item_opt]. rewrite H6. cbn [bind].
    pose proof (read_only_trans _ _ _ R R2) as R12. destruct (deref_get d2 b _ (ro_coherent _ _ R12) (deref_ro _ _ _ _ R12 H7)) as (d3 & G3 & R3). rewrite G3. cbn [bind].
    pose proof (read_only_trans _ _ _ R12 R3) as R13. destruct (widths_ok ds dw H8) as (w' & P & W).
    assert (X : exists d4, get_object d3 match dget K_DW y with Some v => v | None => PInt 1000 end = Ok (dw, d4) /\ read_only d3 d4).
    { destruct H9 as [[-> ->]|(o & -> & DE)]; [exists d3; split; [reflexivity|apply read_only_refl; exact (ro_coherent _ _ R13)]|].
      exact (deref_get d3 o _ (ro_coherent _ _ R13) (deref_ro _ _ _ _ R13 DE)). }
    destruct X as (d4 & G4 & R4). rewrite G4. cbn [bind]. rewrite P. cbn [bind]. eexists _, d4. split; [reflexivity|]. split; [eapply read_only_trans; eauto|].
    eapply Wr_descendant; eauto.
  - change (B "/Widths") with K_Widths in *. change (B "/DescendantFonts") with K_Descendants in *. rewrite H1, H2. cbn [obj_truthy].
    eexists _, d. split; [reflexivity|]. split; [now apply read_only_refl|]. apply Wr_default; auto. intro c. unfold prepare_widths. rewrite repeat_length.
    destruct ((c - 0 <? 0) || (Z.of_nat 256 <=? c - 0)) eqn:Q; [reflexivity|]. destruct (nth_500 (Z.to_nat (c - 0)) 256); [auto|lia].
Qed.
Lemma text_spec d f dec : coherent d -> text_rule d f dec -> exists dec' d1, dec_fun_of d f = Ok (dec', d1) /\ read_only d d1 /\ text_rule d f dec'.
Proof.
  intros C H. unfold dec_fun_of. destruct H as [a x c e items wl H1 H2 H3 H4 H5 H6 H7 _ _|H1 _].
  - change (B "/ToUnicode") with K_ToUnicode in *. rewrite H1, H2. destruct (deref_get d a _ C H3) as (d1 & G & R). rewrite G. cbn [bind].
    change ([91] ++ c ++ [93]) with (B "[" ++ c ++ B "]"). rewrite H7. cbn [bind]. eexists _, d1. split; [reflexivity|]. split; [auto|].
    eapply Tr_map; eauto.
    + intros cs s F E. now apply tounicode_literal.
    + intros cs F. now apply tounicode_hex.
  - change (B "/ToUnicode") with K_ToUnicode in *. rewrite H1. cbn [obj_truthy]. eexists _, d. split; [reflexivity|]. split; [now apply read_only_refl|].
    apply Tr_encoding; [exact H1|]. intros raw s F E. now apply encoding_ascii.
Qed.

(* what prepare_font returns for the font o *)
Record described (d : doc) (o : obj) (fd : fdesc) : Prop := mk_described {
  de_iref : fd_iref fd = o;
  de_dict : exists f, deref d o (PDict f) /\ prepared d f (fd_font fd) /\
    (exists c s, dget (B "/BaseFont") f = Some (PStr (c :: s)) /\ fd_name fd = PStr (c :: s)) /\
    (exists c s, dget (B "/Subtype") f = Some (PStr (c :: s)) /\ fd_type fd = PStr (c :: s)) /\
    fd_tou fd = (match dget (B "/ToUnicode") f with Some v => v | None => PNone end) /\
    fd_enc fd = (match dget (B "/Encoding") f with Some v => v | None => PNone end) }.
Lemma described_same d d1 o fd : same_values d d1 -> described d o fd -> described d1 o fd.
Proof.
  intros R [H (f & D & (P1 & P2) & X)]. constructor; auto. exists f. split; [eauto using deref_same|]. split; [|auto]. split; [eapply widths_same; eauto|eapply text_same; eauto].
Qed.
Lemma font_spec d o f : coherent d -> usable d o f -> exists fd d1, prepare_font d o = Ok (fd, d1) /\ read_only d d1 /\ described d o fd.
Proof.
  intros C [H1 (c1 & s1 & H2) (c2 & s2 & H3) (w & H4) (dec & H5)]. unfold prepare_font. destruct (deref_get d o _ C H1) as (d1 & G & R). rewrite G. cbn [bind item dict_of].
  change (B "/BaseFont") with K_BaseFont in H2. change (B "/Subtype") with K_Subtype in H3. rewrite H2, H3. cbn [of_opt bind].
  destruct (width_spec d1 f w (ro_coherent _ _ R) (widths_same _ _ _ _ (ro_same _ _ R) H4)) as (w' & d2 & E2 & R2 & W2). rewrite E2. cbn [bind].
  pose proof (read_only_trans _ _ _ R R2) as R12.
  destruct (text_spec d2 f dec (ro_coherent _ _ R12) (text_same _ _ _ _ (ro_same _ _ R12) H5)) as (dec' & d3 & E3 & R3 & T3). rewrite E3. cbn [bind].
  eexists _, d3. split; [reflexivity|]. split; [eapply read_only_trans; eauto|]. constructor; [reflexivity|]. exists f. split; [auto|]. split.
  - split; cbn [f_width f_dec fd_font]; [eapply widths_same; [apply same_sym; apply (ro_same _ _ R)|exact W2]|eapply text_same; [apply same_sym; apply (ro_same _ _ R12)|exact T3]].
  - split; [eexists _, _; split; [exact H2|reflexivity]|]. split; [eexists _, _; split; [exact H3|reflexivity]|]. split; reflexivity.
Qed.
Definition same_fonts (d : doc) (kv : bytes * obj) (kf : bytes * fdesc) : Prop := fst kv = fst kf /\ described d (snd kv) (snd kf).
Definition all_usable (d : doc) (l : dict) : Prop := Forall (fun kv => exists f, usable d (snd kv) f) l.
Lemma fonts_spec l : forall d, coherent d -> all_usable d l -> exists fl d1, prepare_fonts d l = Ok (fl, d1) /\ read_only d d1 /\ Forall2 (same_fonts d) l fl.
Proof.
  induction l as [|[k o] l IH]; intros d C H; cbn [prepare_fonts]; [exists [], d; split; [auto|]; split; [now apply read_only_refl|constructor]|].
  inversion H as [|? ? (f & U) H']; subst. destruct (font_spec d o f C U) as (fd & d1 & E & R & D). rewrite E. cbn [bind].
  destruct (IH d1 (ro_coherent _ _ R)) as (fl & d2 & E2 & R2 & F2). { eapply Forall_impl; [|exact H']. intros kv (g & Ug). exists g. eapply usable_same; [apply ro_same; eauto|auto]. }
  rewrite E2. cbn [bind]. eexists _, d2. split; [reflexivity|]. split; [eapply read_only_trans; eauto|]. constructor; [split; auto|].
  eapply Facts_Pages.Forall2_impl; [|exact F2]. intros a b [A1 A2]. split; [auto|]. eapply described_same; [apply same_sym; apply ro_same; eauto|auto].
Qed.
Lemma fdict_same d d1 p l : same_values d d1 -> page_font_dict d p l -> page_font_dict d1 p l.
Proof. intros R H. destruct H; [eapply Pf_dict|eapply Pf_none]; eauto using deref_same. Qed.
Lemma page_fonts_spec t fu d base i x l : coherent d -> has_tree d t -> (depth t < fu)%nat -> at_index (leaves t) i x -> page_font_dict d (leaf_page x) l -> all_usable d l ->
  exists fl base' d1, page_fonts fu d base i = Ok (fl, base', d1) /\ read_only d d1 /\ Forall2 (same_fonts d) l fl.
Proof.
  intros C HT D IX PF AU. unfold page_fonts. destruct (flat_spec t fu d base C HT D) as (cl & base' & d1 & FL & R & LI & _). rewrite FL. cbn [bind of_opt].
  destruct (index2 _ _ _ _ _ LI IX) as ([o inh] & G & [EQ _]). cbn [fst] in EQ. subst o. rewrite G. cbn [bind fst].
  destruct (leaf_points d t x HT (index_in _ _ _ IX)) as (PN & g & ER & VP). rewrite ER.
  destruct (read_ok d1 g (leaf_num x) (PDict (leaf_page x)) (ro_coherent _ _ R) ltac:(lia)) as (d2 & G2 & R2); [rewrite (ro_values _ _ R) by lia; exact VP|]. rewrite G2. cbn [bind item].
  pose proof (read_only_trans _ _ _ R R2) as R12.
  assert (X : exists d3, (let* r := of_opt EKeyError (dget K_Resources (leaf_page x)) in
     if obj_truthy r then let* (rd, d3) := get_object d2 r in let* f := item K_Font rd in let* l := match f with PDict l => Ok l | PList [] => Ok [] | _ => Exc ETypeError end in Ok (l, d3) else Ok ([], d2)) = Ok (l, d3) /\ read_only d d3).
  { destruct PF as [r res l H1 H2 H3 H4|r H1 H2]; change (B "/Resources") with K_Resources in *; rewrite H1; cbn [of_opt bind]; rewrite H2.
    - destruct (deref_get d2 r _ (ro_coherent _ _ R12) (deref_ro _ _ _ _ R12 H3)) as (d3 & G3 & R3). rewrite G3. cbn [bind item]. change (B "/Font") with K_Font in *. rewrite H4. cbn [of_opt bind].
      exists d3. split; [reflexivity|]. eapply read_only_trans; eauto.
    - exists d2. split; [reflexivity|auto]. }
  destruct X as (d3 & E3 & R3). destruct (of_opt EKeyError (dget K_Resources (leaf_page x))) as [r| |] eqn:Q; cbn [bind] in E3; try discriminate. cbn [bind]. rewrite E3. cbn [bind].
  destruct (fonts_spec l d3 (ro_coherent _ _ R3)) as (fl & d4 & E4 & R4 & F4). { eapply Forall_impl; [|exact AU]. intros kv (f & U). exists f. eapply usable_same; [apply ro_same; eauto|auto]. }
  rewrite E4. cbn [bind]. exists fl, base', d4. split; [reflexivity|]. split; [eapply read_only_trans; eauto|].
  eapply Facts_Pages.Forall2_impl; [|exact F4]. intros a b [A1 A2]. split; [auto|]. eapply described_same; [apply same_sym; apply ro_same; eauto|auto].
Qed.
Lemma all_pages_spec t fu l : forall d base k ls, coherent d -> has_tree d t -> (depth t < fu)%nat -> (forall j x, nth_error l j = Some x -> nth_error (leaves t) (k + j) = Some x) ->
  Forall2 (fun x l => page_font_dict d (leaf_page x) l /\ all_usable d l) l ls ->
  exists fls base' d1, get_page_fonts fu d base (zseq (Z.of_nat k) (length l)) = Ok (fls, base', d1) /\ read_only d d1 /\ Forall2 (Forall2 (same_fonts d)) ls fls.
Proof.
  induction l as [|x l IH]; intros d base k ls C HT D IX F; inversion F as [|? fd ? ls' [P U] F']; subst; cbn [length zseq get_page_fonts].
  - exists [], base, d. split; [auto|]. split; [now apply read_only_refl|constructor].
  - destruct (page_fonts_spec t fu d base (Z.of_nat k) x fd C HT D) as (fl & base' & d1 & E & R & F1); [exists k; split; [rewrite <- (IX 0%nat x eq_refl); f_equal; lia|left; reflexivity]|auto|auto|].
    rewrite E. cbn [bind]. pose proof (ro_same _ _ R) as SV.
    destruct (IH d1 base' (S k) ls' (ro_coherent _ _ R) (has_tree_ro _ _ _ R HT) D) as (fls & b2 & d2 & E2 & R2 & F2).
    { intros j y Y. rewrite <- (IX (S j) y Y). f_equal. lia. }
    { eapply Facts_Pages.Forall2_impl; [|exact F']. intros a b [A1 A2]. split; [eapply fdict_same; eauto|]. eapply Forall_impl; [|exact A2]. intros kv (f & Uf). exists f. eapply usable_same; eauto. }
    replace (Z.of_nat k + 1) with (Z.of_nat (S k)) by lia. rewrite E2. cbn [bind]. exists (fl :: fls), b2, d2. split; [reflexivity|]. split; [eapply read_only_trans; eauto|]. constructor; [auto|].
    eapply Facts_Pages.Forall2_impl; [|exact F2]. intros a b F3. eapply Facts_Pages.Forall2_impl; [|exact F3]. intros u v [U1 U2]. split; [auto|]. eapply described_same; [apply same_sym; eauto|auto].
Qed.

(* ---- the table ---- *)
Definition on_pages (k : ref) (E : list (Z * ref)) : list Z := map fst (filter (fun e => ref_eqb k (snd e)) E).
Definition good_row (d : doc) (r : frow) : Prop := exists f, deref d (PRef (fst (fr_key r)) (snd (fr_key r))) (PDict f) /\
    (exists c, dget (B "/BaseFont") f = Some (PStr (c :: fr_name r))) /\ (exists c, dget (B "/Subtype") f = Some (PStr (c :: fr_type r))) /\
    shown_encoding f (fr_type r) (fr_enc r) /\ (fr_tou r = true <-> exists a, dget (B "/ToUnicode") f = Some a /\ obj_truthy a = true).
Definition before (a b : frow) : Prop := match fr_pages a, fr_pages b with x :: _, y :: _ => x <= y | _, _ => False end.
Record noted (d : doc) (E : list (Z * ref)) (ret : list frow) : Prop := mk_noted {
  no_nodup : NoDup (map fr_key ret);
  no_keys : forall k, In k (map fr_key ret) <-> In k (map snd E);
  no_pages : Forall (fun r => fr_pages r = on_pages (fr_key r) E) ret;
  no_good : Forall (good_row d) ret;
  no_sorted : StronglySorted before ret }.
Lemma ref_eqb_iff a b : ref_eqb a b = true <-> a = b.
Proof. unfold ref_eqb. destruct a, b. cbn [fst snd]. split; [intro; f_equal; lia|intro Q; injection Q as -> ->; lia]. Qed.
Lemma ref_eqb_refl a : ref_eqb a a = true.
Proof. now apply ref_eqb_iff. Qed.
Lemma note_keys k i l : map fr_key (note_page k i l) = map fr_key l.
Proof. induction l as [|r l IH]; cbn [note_page map]; [auto|]. destruct (ref_eqb k (fr_key r)); cbn [map]; [reflexivity|]. now rewrite IH. Qed.
Lemma note_in k i l : NoDup (map fr_key l) -> forall r, In r (note_page k i l) -> exists r0, In r0 l /\ fr_key r = fr_key r0 /\ fr_name r = fr_name r0 /\ fr_type r = fr_type r0 /\ fr_enc r = fr_enc r0 /\ fr_tou r = fr_tou r0 /\
  fr_pages r = fr_pages r0 ++ (if ref_eqb k (fr_key r0) then [i] else []).
Proof.
  induction l as [|a l IH]; cbn [note_page map]; intros ND r I; [destruct I|]. inversion ND as [|? ? NI ND']; subst. destruct (ref_eqb k (fr_key a)) eqn:Q.
  - destruct I as [<-|I]; [exists a; rewrite Q; repeat split; auto; left; auto|]. exists r. split; [right; auto|]. repeat split.
    destruct (ref_eqb k (fr_key r)) eqn:Q2; [|now rewrite app_nil_r]. exfalso. apply NI. apply ref_eqb_iff in Q. apply ref_eqb_iff in Q2. rewrite <- Q, Q2. now apply in_map.
  - destruct I as [<-|I]; [exists a; rewrite Q, app_nil_r; repeat split; left; auto|]. destruct (IH ND' r I) as (r0 & I0 & X). exists r0. split; [right; auto|auto].
Qed.
Lemma note_sorted k i l : StronglySorted before l -> Forall (fun r => fr_pages r <> []) l -> StronglySorted before (note_page k i l).
Proof.
  intros SS. induction SS as [|a l SS IH F]; intro N; cbn [note_page]; [constructor|]. inversion N as [|? ? N1 N2]; subst.
  destruct (ref_eqb k (fr_key a)).
  - constructor; [auto|]. eapply Forall_impl; [|exact F]. intros b H. unfold before in *. cbn [fr_pages]. destruct (fr_pages a); [congruence|]. exact H.
  - constructor; [auto|]. assert (G : forall l, Forall (before a) l -> Forall (before a) (note_page k i l)); [|auto]. clear. induction l as [|b l IH]; cbn [note_page]; intro F; [constructor|].
    inversion F as [|? ? F1 F2]; subst. destruct (ref_eqb k (fr_key b)); constructor; auto. unfold before in *. cbn [fr_pages]. destruct (fr_pages a); [auto|]. destruct (fr_pages b); [destruct F1|exact F1].
Qed.
Lemma sorted_snoc l x : StronglySorted before l -> Forall (fun a => before a x) l -> StronglySorted before (l ++ [x]).
Proof.
  induction 1 as [|a l S1 IH F]; intro G; cbn [app]; [constructor; [constructor|constructor]|]. inversion G; subst. constructor; [auto|]. apply Forall_app. split; [auto|constructor; [auto|constructor]].
Qed.
Lemma on_pages_snoc k E i k' : on_pages k (E ++ [(i, k')]) = on_pages k E ++ (if ref_eqb k k' then [i] else []).
Proof. unfold on_pages. rewrite filter_app, map_app. cbn [filter snd]. destruct (ref_eqb k k'); reflexivity. Qed.
Lemma on_pages_in k E : In k (map snd E) <-> on_pages k E <> [].
Proof.
  unfold on_pages. induction E as [|[i a] E IH]; cbn [map snd filter]; [split; [intros []|congruence]|]. destruct (ref_eqb k a) eqn:Q.
  - apply ref_eqb_iff in Q. cbn [map]. split; [intros _; discriminate|intros _; left; auto].
  - cbn [In]. rewrite <- IH. split; [intros [->|]; [|auto]|auto]. rewrite ref_eqb_refl in Q. discriminate.
Qed.
Lemma on_pages_le k E i : Forall (fun e => fst e <= i) E -> Forall (fun j => j <= i) (on_pages k E).
Proof. unfold on_pages. induction 1 as [|e E H F IH]; cbn [filter]; [constructor|]. destruct (ref_eqb k (snd e)); cbn [map]; auto. Qed.
Lemma deref_fun d o f f' : deref d o (PDict f) -> deref d o (PDict f') -> f' = f.
Proof.
  intros D D'. destruct o; inversion D; inversion D'; subst; try congruence; exfalso; eauto.
Qed.
Lemma encoding_shown d o f fd ty : described d o fd -> deref d o (PDict f) -> shown_encoding f ty (encoding_name ty (fd_enc fd)).
Proof.
  intros [_ (f' & D & _ & _ & _ & _ & E)] D'. assert (f' = f). { eapply deref_fun; eauto. } subst f'.
  rewrite E. change T_Type1 with (B "Type1"). unfold encoding_name. destruct (dget (B "/Encoding") f) as [e|] eqn:Q.
  - destruct e; try (apply (Se_other f ty _ Q); intros; discriminate).
    + destruct (beqb ty T_Type1) eqn:T; [apply Se_builtin|apply Se_missing]; try (right; exact Q); [now apply beqb_eq in T|]. intros ->. now rewrite beqb_refl in T.
    + change (skipn 1 s) with (tl s) || (destruct s; [change (skipn 1 []) with (@tl Z [])|change (skipn 1 (z :: s)) with (tl (z :: s))]); now apply Se_name.
  - destruct (beqb ty T_Type1) eqn:T; [apply Se_builtin|apply Se_missing]; try (left; exact Q); [now apply beqb_eq in T|]. intros ->. now rewrite beqb_refl in T.
Qed.
Lemma note_font_spec d E ret i g n fd : noted d E ret -> described d (PRef g n) fd -> Forall (fun e => fst e <= i) E ->
  exists ret', note_font i ret fd = Ok ret' /\ noted d (E ++ [(i, (g, n))]) ret'.
Proof.
  intros [N1 N2 N3 N4 N5] DE LE. pose proof DE as [DI (f & D & _ & (c1 & s1 & B1 & B2) & (c2 & s2 & T1 & T2) & U & _)]. unfold note_font. rewrite B2, T2, DI. cbn [cut1 skipn bind].
  set (r0 := mk_frow (g, n) s1 s2 (encoding_name s2 (fd_enc fd)) [] (obj_truthy (fd_tou fd))).
  set (ret1 := if existsb (fun r => ref_eqb (g, n) (fr_key r)) ret then ret else ret ++ [r0]).
  assert (G0 : forall ps, good_row d (mk_frow (g, n) s1 s2 (encoding_name s2 (fd_enc fd)) ps (obj_truthy (fd_tou fd)))).
  { intro ps. exists f. split; [exact D|]. split; [exists c1; exact B1|]. split; [exists c2; exact T1|]. split; [cbn [fr_type fr_enc]; eapply encoding_shown; eauto|]. cbn [fr_tou]. rewrite U.
    destruct (dget (B "/ToUnicode") f) as [a|]; [split; [intro; exists a; auto|intros (a' & Q & T); now injection Q as <-]|split; [discriminate|intros (a' & Q & _); discriminate]]. }
  assert (K : forall k, In k (map fr_key ret1) <-> In k (map snd (E ++ [(i, (g, n))]))).
  { intro k. rewrite map_app, in_app_iff. cbn [map snd In]. unfold ret1. destruct (existsb _ ret) eqn:X.
    - rewrite N2. split; [auto|intros [|[<-|[]]]; [auto|]]. apply existsb_exists in X as (r & I & Q). apply ref_eqb_iff in Q. apply N2. rewrite Q. now apply in_map.
    - rewrite map_app, in_app_iff. cbn [map In]. unfold r0. cbn [fr_key]. rewrite N2. tauto. }
  assert (ND : NoDup (map fr_key ret1)).
  { unfold ret1. destruct (existsb _ ret) eqn:X; [auto|]. rewrite map_app. cbn [map fr_key r0]. eapply Permutation_NoDup; [apply Permutation_cons_append|].
    constructor; [|auto]. intro I. apply in_map_iff in I as (r & Q & I). assert (X2 : existsb (fun r => ref_eqb (g, n) (fr_key r)) ret = true) by (apply existsb_exists; exists r; split; [auto|now apply ref_eqb_iff]). congruence. }
  assert (P1 : Forall (fun r => fr_pages r = on_pages (fr_key r) E) ret1).
  { unfold ret1. destruct (existsb _ ret) eqn:X; [auto|]. apply Forall_app. split; [auto|]. constructor; [|constructor]. cbn [fr_pages fr_key r0]. symmetry.
    destruct (on_pages (g, n) E) eqn:Q; [auto|]. exfalso. assert (I : In (g, n) (map snd E)) by (apply on_pages_in; congruence). apply N2 in I. apply in_map_iff in I as (r & Q2 & I).
    assert (X2 : existsb (fun r => ref_eqb (g, n) (fr_key r)) ret = true) by (apply existsb_exists; exists r; split; [auto|now apply ref_eqb_iff]). congruence. }
  exists (note_page (g, n) i ret1). split; [reflexivity|]. constructor.
  - now rewrite note_keys.
  - intro k. rewrite note_keys. apply K.
  - apply Forall_forall. intros r I. destruct (note_in _ _ _ ND _ I) as (r1 & I1 & Q1 & _ & _ & _ & _ & Q2). rewrite Q2, Q1, on_pages_snoc. rewrite Forall_forall in P1. rewrite (P1 _ I1). f_equal.
    unfold ref_eqb. cbn [fst snd]. rewrite (Z.eqb_sym g), (Z.eqb_sym n). reflexivity.
  - apply Forall_forall. intros r I. destruct (note_in _ _ _ ND _ I) as (r1 & I1 & Q1 & Q2 & Q3 & Q4 & Q5 & _).
    assert (GR : good_row d r1). { unfold ret1 in I1. rewrite Forall_forall in N4. destruct (existsb _ ret); [auto|]. apply in_app_or in I1 as [I1|[<-|[]]]; [auto|apply G0]. }
    destruct GR as (f1 & GR). exists f1. rewrite Q1, Q2, Q3, Q4, Q5. exact GR.
  - assert (NE : Forall (fun r => fr_pages r <> []) ret).
    { apply Forall_forall. intros r I. rewrite Forall_forall in N3. rewrite (N3 _ I). apply on_pages_in. apply N2. now apply in_map. }
    unfold ret1. destruct (existsb _ ret) eqn:X; [apply note_sorted; auto|].
    assert (Y : note_page (g, n) i (ret ++ [r0]) = ret ++ [mk_frow (g, n) s1 s2 (encoding_name s2 (fd_enc fd)) [i] (obj_truthy (fd_tou fd))]).
    { clear -X. induction ret as [|r l IH]; cbn [app note_page existsb] in *; [cbn [fr_key r0]; now rewrite ref_eqb_refl|]. apply orb_false_elim in X as [X1 X2]. rewrite X1. f_equal. auto. }
    rewrite Y. apply sorted_snoc; [auto|]. apply Forall_forall. intros r I. unfold before. cbn [fr_pages]. rewrite Forall_forall in NE, N3. specialize (NE _ I). rewrite (N3 _ I) in *.
    pose proof (on_pages_le (fr_key r) E i LE) as L. destruct (on_pages (fr_key r) E); [congruence|]. inversion L; auto.
Qed.
Definition events (i : Z) (l : dict) : list (Z * ref) := flat_map (fun kv => match snd kv with PRef g n => [(i, (g, n))] | _ => [] end) l.
Definition indirect (l : dict) : Prop := Forall (fun kv => exists g n, snd kv = PRef g n) l.
Lemma note_fonts_spec d i l : forall fl, Forall2 (same_fonts d) l fl -> indirect l -> forall E ret, noted d E ret -> Forall (fun e => fst e <= i) E ->
  exists ret', note_fonts i ret fl = Ok ret' /\ noted d (E ++ events i l) ret'.
Proof.
  induction 1 as [|[k o] [k' fd] l fl [Q D] F IH]; intros IN E ret N LE; cbn [note_fonts events flat_map].
  - exists ret. rewrite app_nil_r. auto.
  - inversion IN as [|? ? (g & n & Eo) IN']; subst. cbn [snd] in *. subst o. destruct (note_font_spec d E ret i g n fd N D LE) as (r1 & E1 & N1). rewrite E1. cbn [bind].
    destruct (IH IN' (E ++ [(i, (g, n))]) r1 N1) as (r2 & E2 & N2). { apply Forall_app. split; [auto|]. constructor; [cbn; lia|constructor]. }
    exists r2. split; [auto|]. now rewrite <- app_assoc in N2.
Qed.
Fixpoint all_events (i : Z) (ls : list dict) : list (Z * ref) := match ls with [] => [] | l :: t => events i l ++ all_events (i + 1) t end.
Lemma events_at i l : Forall (fun e => fst e = i) (events i l).
Proof. unfold events. apply Forall_flat_map. apply Forall_forall. intros kv _. destruct (snd kv); repeat constructor. Qed.
Lemma note_all_spec d : forall ls fls, Forall2 (Forall2 (same_fonts d)) ls fls -> Forall indirect ls -> forall i E ret, noted d E ret -> Forall (fun e => fst e <= i) E ->
  exists ret', note_all i ret fls = Ok ret' /\ noted d (E ++ all_events i ls) ret'.
Proof.
  induction 1 as [|l fl ls fls F F2 IH]; intros IN i E ret N LE; cbn [note_all all_events].
  - exists ret. rewrite app_nil_r. auto.
  - inversion IN as [|? ? I1 I2]; subst. destruct (note_fonts_spec d i l fl F I1 E ret N LE) as (r1 & E1 & N1). rewrite E1. cbn [bind].
    destruct (IH I2 (i + 1) (E ++ events i l) r1 N1) as (r2 & E2 & N2).
    { apply Forall_app. split; [eapply Forall_impl; [|exact LE]; cbn beta; lia|]. eapply Forall_impl; [|apply events_at]. cbn beta. lia. }
    exists r2. split; [auto|]. now rewrite <- app_assoc in N2.
Qed.
Lemma on_pages_app k A E : on_pages k (A ++ E) = on_pages k A ++ on_pages k E.
Proof. unfold on_pages. now rewrite filter_app, map_app. Qed.
Lemma on_events k i l : on_pages k (events i l) = repeat i (uses k l).
Proof.
  induction l as [|[a o] l IH]; [reflexivity|]. change (events i ((a, o) :: l)) with ((match o with PRef g n => [(i, (g, n))] | _ => [] end) ++ events i l). rewrite on_pages_app, IH.
  unfold uses. cbn [filter snd]. destruct o; try reflexivity. unfold on_pages. cbn [filter snd map].
  replace (ref_eqb k (gen, num)) with ((gen =? fst k) && (num =? snd k)) by (unfold ref_eqb; cbn [fst snd]; rewrite (Z.eqb_sym gen), (Z.eqb_sym num); reflexivity).
  destruct ((gen =? fst k) && (num =? snd k)); reflexivity.
Qed.
Lemma on_all k : forall ls i, on_pages k (all_events i ls) = pages_using k i ls.
Proof.
  induction ls as [|l ls IH]; intro i; cbn [all_events pages_using]; [reflexivity|]. rewrite <- IH, <- on_events. apply on_pages_app.
Qed.
Lemma all_events_in k ls : forall i, In k (map snd (all_events i ls)) <-> exists l a, In l ls /\ In (a, PRef (fst k) (snd k)) l.
Proof.
  induction ls as [|l ls IH]; intro i; cbn [all_events map]; [split; [intros []|intros (? & ? & [] & _)]|]. rewrite map_app, in_app_iff, IH.
  assert (X : In k (map snd (events i l)) <-> exists a, In (a, PRef (fst k) (snd k)) l).
  { unfold events. split.
    - intro I. apply in_map_iff in I as ([j k'] & Q & I). cbn [snd] in Q. subst k'. apply in_flat_map in I as ([a o] & I1 & I2). cbn [snd] in I2. destruct o; try destruct I2. injection H as <- <-. exists a. exact I1. destruct H.
    - intros (a & I). apply in_map_iff. exists (i, k). split; [auto|]. apply in_flat_map. exists (a, PRef (fst k) (snd k)). split; [auto|]. cbn [snd]. left. destruct k; reflexivity. }
  rewrite X. split.
  - intros [(a & I)|(l' & a & I1 & I2)]; [exists l, a; split; [left; auto|auto]|exists l', a; split; [right; auto|auto]].
  - intros (l' & a & [->|I1] & I2); [left; eauto|right; eauto].
Qed.
Theorem fonts_table_spec t fu d base ls : coherent d -> has_tree d t -> (depth t < fu)%nat -> dget K_Count (tdict t) = Some (PInt (Z.of_nat (length (leaves t)))) ->
  Forall2 (fun x l => page_font_dict d (leaf_page x) l) (leaves t) ls -> Forall (all_usable d) ls -> Forall indirect ls ->
  exists rows base' d1, fonts fu d base = Ok (rows, base', d1) /\ same_values d d1 /\ font_table d ls rows.
Proof.
  intros C HT D CO PF AU IN. unfold fonts.
  assert (NP : exists d1, number_pages d = Ok (PInt (Z.of_nat (length (leaves t))), d1) /\ read_only d d1).
  { pose proof HT as (c & cat & CA & _ & _ & PG & H & (o & nd & kids & ->)). cbn [tdict] in CO. unfold number_pages. destruct (catalog_read d c cat C CA) as (g & dc & EC & RC). rewrite EC. cbn [bind item]. rewrite PG. cbn [of_opt bind tref].
    inversion H as [|o' n nd' kids' P T K FH]; subst. destruct (points_read dc o n _ (ro_coherent _ _ RC) (points_ro _ _ _ _ _ RC P)) as (dn & G & R). rewrite G. cbn [bind item]. rewrite CO. cbn [of_opt bind].
    exists dn. split; [reflexivity|]. eapply read_only_trans; eauto. }
  destruct NP as (d1 & NP & R1). rewrite NP. cbn [bind]. rewrite Nat2Z.id. pose proof (ro_same _ _ R1) as SV.
  destruct (all_pages_spec t fu (leaves t) d1 base 0%nat ls (ro_coherent _ _ R1) (has_tree_ro _ _ _ R1 HT) D) as (fls & b' & d2 & E & R2 & F).
  { intros j x X. exact X. }
  { clear -PF AU SV. induction PF as [|x l xs ls P PF IH]; [constructor|]. inversion AU as [|? ? A1 A2]; subst. constructor; [|auto]. split; [eapply fdict_same; eauto|]. eapply Forall_impl; [|exact A1]. intros kv (f & U). exists f. eapply usable_same; eauto. }
  change (Z.of_nat 0) with 0 in E. rewrite E. cbn [bind].
  assert (F' : Forall2 (Forall2 (same_fonts d)) ls fls).
  { eapply Facts_Pages.Forall2_impl; [|exact F]. intros a b Q. eapply Facts_Pages.Forall2_impl; [|exact Q]. intros u v [U1 U2]. split; [auto|]. eapply described_same; [apply same_sym; eauto|auto]. }
  destruct (note_all_spec d ls fls F' IN 0 [] []) as (rows & E3 & [N1 N2 N3 N4 N5]).
  { constructor; try constructor; intros []. }
  { constructor. }
  rewrite E3. cbn [bind]. exists rows, b', d2. split; [reflexivity|]. split; [apply ro_same; eapply read_only_trans; eauto|]. cbn [app] in *. split; [auto|]. split; [|split; [|auto]].
  - apply Forall_forall. intros r I. rewrite Forall_forall in N3, N4. constructor; [rewrite (N3 _ I); apply on_all|exact (N4 _ I)].
  - intros g n. rewrite N2. rewrite all_events_in. reflexivity.
Qed.

(* ---- the text of a page ---- *)
Theorem text_of_page t fu d base i x l cs out base' d1 : coherent d -> has_tree d t -> (depth t < fu)%nat -> at_index (leaves t) i x ->
  page_font_dict d (leaf_page x) l -> all_usable d l -> page_contents d (leaf_page x) cs ->
  extract_page_text fu d base i = Ok (out, base', d1) -> same_values d d1 /\
  exists fs tfs order, Forall2 (fun kv kf => fst kv = fst kf /\ exists f, deref d (snd kv) (PDict f) /\ prepared d f (snd kf)) l fs /\
    build_text_fragments cs fs = Ok tfs /\ Permutation (map (fun f => snd (fst f)) tfs) order /\ ink out = ink (concat order).
Proof.
  intros C HT D IX PF AU PC E. unfold extract_page_text in E. destruct (page_fonts_spec t fu d base i x l C HT D IX PF AU) as (fl & b1 & d2 & E1 & R1 & F). rewrite E1 in E. cbn [bind] in E.
  assert (PC2 : page_contents d2 (leaf_page x) cs). { destruct PC as (items & ps & F2 & Q & H). exists items, ps. split; [|auto]. eapply Facts_Pages.Forall2_impl; [|exact F2]. cbn beta. intros a b. now apply parts_ro. }
  destruct (contents_spec t fu d2 b1 i x cs (ro_coherent _ _ R1) (has_tree_ro _ _ _ R1 HT) D IX PC2) as (b2 & d3 & E2 & SV). rewrite E2 in E. cbn [bind] in E.
  destruct (page_text cs _) as [o| |] eqn:PT; cbn [bind] in E; try discriminate. injection E as -> -> ->.
  split; [intros n N; rewrite (SV n N); now apply (ro_values _ _ R1)|]. destruct (page_text_order _ _ _ PT) as (tfs & order & T1 & T2 & T3). eexists _, tfs, order. split; [|eauto].
  clear -F. induction F as [|[k o] [k' fd] l fl [Q H] F IH]; cbn [map]; constructor; [|auto]. cbn [fst snd] in *. split; [auto|]. destruct H as [_ (f & D & P & _)]. eauto.
Qed.
(* the text exists when the page has fragments that can be laid out *)
Theorem text_total t fu d base i x l cs : coherent d -> has_tree d t -> (depth t < fu)%nat -> at_index (leaves t) i x ->
  page_font_dict d (leaf_page x) l -> all_usable d l -> page_contents d (leaf_page x) cs ->
  exists fs base' d1, Forall2 (fun kv kf => fst kv = fst kf /\ exists f, deref d (snd kv) (PDict f) /\ prepared d f (snd kf)) l fs /\ same_values d d1 /\
    extract_page_text fu d base i = (let* t := page_text cs fs in Ok (t, base', d1)).
Proof.
  intros C HT D IX PF AU PC. unfold extract_page_text. destruct (page_fonts_spec t fu d base i x l C HT D IX PF AU) as (fl & b1 & d2 & E1 & R1 & F). rewrite E1. cbn [bind].
  assert (PC2 : page_contents d2 (leaf_page x) cs). { destruct PC as (items & ps & F2 & Q & H). exists items, ps. split; [|auto]. eapply Facts_Pages.Forall2_impl; [|exact F2]. cbn beta. intros a b. now apply parts_ro. }
  destruct (contents_spec t fu d2 b1 i x cs (ro_coherent _ _ R1) (has_tree_ro _ _ _ R1 HT) D IX PC2) as (b2 & d3 & E2 & SV). rewrite E2. cbn [bind].
  eexists _, b2, d3. split; [|split; [intros n N; rewrite (SV n N); now apply (ro_values _ _ R1)|reflexivity]].
  clear -F. induction F as [|[k o] [k' fd] l fl [Q H] F IH]; cbn [map]; constructor; [|auto]. cbn [fst snd] in *. split; [auto|]. destruct H as [_ (f & D & P & _)]. eauto.
Qed.
End WithZlib.

(* ---- the printed table ---- *)
Lemma table_line_spec : forall line widths, length line = length widths -> exists s, columns_line line widths = Ok s /\ printed_line line widths s.
Proof.
  induction line as [|c cs IH]; intros [|w ws] L; cbn [length] in L; try discriminate; cbn [columns_line]; [exists [10]; split; [auto|constructor]|].
  destruct (IH ws ltac:(lia)) as (t & E & P). rewrite E. cbn [bind]. eexists. split; [reflexivity|]. unfold ljust. rewrite <- app_assoc. rewrite firstn_length.
  replace (w - Nat.min w (length c))%nat with (w - length c)%nat by lia. now constructor.
Qed.
Lemma generic_table_spec widths : forall lines, Forall (fun l => length l = length widths) lines -> exists ss, generic_table lines widths = Ok (concat ss) /\ Forall2 (fun l s => printed_line l widths s) lines ss.
Proof.
  induction 1 as [|l lines L F IH]; cbn [generic_table]; [exists []; split; [auto|constructor]|]. destruct (table_line_spec l widths L) as (s & E & P). rewrite E. destruct IH as (ss & E2 & F2). rewrite E2. cbn [bind].
  exists (s :: ss). split; [reflexivity|constructor; auto].
Qed.
Lemma fonts_table_lines rows : exists head ss, fonts_table rows = Ok (head ++ concat ss) /\ printed_line [B "Name"; B "Type"; B "Encoding"; B "Obj"; B "Pages"] [30; 10; 16; 8; 6]%nat head /\
  Forall2 (fun r s => printed_line [fr_name r; fr_type r; fr_enc r; dec (snd (fr_key r)) ++ B "," ++ dec (fst (fr_key r)); dec (Z.of_nat (length (fr_pages r)))] [30; 10; 16; 8; 6]%nat s) rows ss.
Proof.
  unfold fonts_table. destruct (generic_table_spec [30; 10; 16; 8; 6]%nat ([B "Name"; B "Type"; B "Encoding"; B "Obj"; B "Pages"] :: map font_line rows)) as (ss & E & F).
  { constructor; [reflexivity|]. apply Forall_forall. intros l I. apply in_map_iff in I as (r & <- & _). reflexivity. }
  rewrite E. inversion F as [|? h ? ss' P F']; subst. exists h, ss'. split; [reflexivity|]. split; [auto|]. clear -F'. revert ss' F'. induction rows as [|r rows IH]; intros ss F; inversion F; subst; constructor; auto.
Qed.
