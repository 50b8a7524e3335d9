(* Proofs about the listing of a file *)
From Coq Require Import String.
From Verif Require Import PyBase Model_Filters Model_Objects Model_Filestruct Model_Disasm.
From Verif Require Import Spec_Filestruct Spec_Disasm Facts_Base Facts_Obj Facts_Scan.
From Coq Require Import ZifyBool ZifyNat.
Open Scope Z_scope.

(* ---- columns ---- *)
Definition wide (w : nat) (c : dcell) : Prop := match c with DInt z => 0 <= z /\ (length (dec z) <= w)%nat | DStr s => (length s <= w)%nat | DNone => True end.
Lemma wide_mono w w' c : wide w c -> (w <= w')%nat -> wide w' c.
Proof. destruct c; cbn; lia. Qed.
Lemma widen_ok : forall ws cs ws', widen ws cs = Ok ws' -> Forall2 le ws ws' /\ (length cs = length ws -> Forall2 wide ws' cs).
Proof.
  induction ws as [|w ws IH]; intros cs ws' E; destruct cs as [|c cs]; cbn [widen] in E.
  - injection E as <-. split; constructor.
  - injection E as <-. split; [constructor|discriminate].
  - injection E as <-. split; [|discriminate]. assert (R : forall l : list nat, Forall2 le l l) by (induction l; constructor; auto). apply R.
  - destruct (cell_width c) as [n| |] eqn:EC; try discriminate. cbn [bind] in E. destruct (widen ws cs) as [t| |] eqn:EW; try discriminate. injection E as <-. destruct (IH _ _ EW) as [I1 I2]. split.
    + constructor; [lia|auto].
    + cbn [length]. intro L. constructor; [|apply I2; lia]. destruct c; cbn [cell_width wide] in *; try (injection EC as <-); try lia; auto. destruct (z <? 0) eqn:Q; [discriminate|]. injection EC as <-. lia.
Qed.
Lemma le_trans2 : forall a b c : list nat, Forall2 le a b -> Forall2 le b c -> Forall2 le a c.
Proof. induction a; intros b c H1 H2; inversion H1; subst; inversion H2; subst; constructor; [lia|eauto]. Qed.
Lemma wide2_mono : forall ws ws' cs, Forall2 le ws ws' -> Forall2 wide ws cs -> Forall2 wide ws' cs.
Proof. induction ws; intros ws' cs H1 H2; inversion H1; subst; inversion H2; subst; constructor; [eapply wide_mono; eauto|eauto]. Qed.
Lemma Forall2_len {A C} (P : A -> C -> Prop) l l' : Forall2 P l l' -> length l = length l'.
Proof. induction 1; cbn; congruence. Qed.
Lemma widths_ok ls : forall ws ws', length ws = 14%nat -> widths_for ws ls = Ok ws' -> Forall2 le ws ws' /\ Forall (fun l => Forall2 wide ws' (cells l)) ls.
Proof.
  induction ls as [|l ls IH]; intros ws ws' L E; cbn [widths_for] in E.
  - injection E as <-. split; [|constructor]. assert (R : forall l : list nat, Forall2 le l l) by (induction l; constructor; auto). apply R.
  - destruct (widen ws (cells l)) as [w1| |] eqn:EW; try discriminate. cbn [bind] in E. destruct (widen_ok _ _ _ EW) as [W1 W2]. pose proof (Forall2_len _ _ _ W1) as L1.
    destruct (IH w1 ws' ltac:(lia) E) as [I1 I2]. split; [eapply le_trans2; eauto|]. constructor; [|auto]. eapply wide2_mono; [exact I1|]. apply W2. rewrite L. reflexivity.
Qed.
Lemma dec_nonneg z : 0 <= z -> dec z = dec_nat z.
Proof. intro N. unfold dec. replace (z <? 0) with false by lia. reflexivity. Qed.
Lemma pad0_dec w z : 0 <= z -> pad0 w z = repeat 48 (w - length (dec z)) ++ dec z.
Proof. intro N. unfold pad0. replace (z <? 0) with false by lia. rewrite dec_nonneg by auto. rewrite Z.abs_eq by auto. reflexivity. Qed.
Definition kind_ok (k : ckind) (c : dcell) : Prop := match k, c with COther, DNone => False | CPos, DStr _ => False | CSize, DStr _ => False | _, _ => True end.
Lemma column_ok k w c : kind_ok k c -> wide w c -> column_shows w k c (cell_text k w c).
Proof.
  intros K W. destruct k, c; try destruct K; cbn [cell_text wide] in *.
  - rewrite repeat_app. apply Co_nopos.
  - rewrite pad0_dec by lia. rewrite <- app_assoc. apply Co_pos. lia.
  - rewrite repeat_app. apply Co_nosize.
  - unfold ljust. rewrite <- app_assoc. apply Co_size. lia.
  - unfold rjust. rewrite <- app_assoc. apply Co_number. lia.
  - unfold ljust. rewrite <- app_assoc. apply Co_text. lia.
Qed.
Lemma line_ok : forall ks cs, Forall2 kind_ok ks cs -> forall ws, Forall2 wide ws cs -> line_shows ks ws cs (line_text ks ws cs).
Proof.
  induction 1 as [|k c ks cs K F IH]; intros ws W; inversion W; subst; cbn [line_text]; constructor; auto using column_ok.
Qed.
Lemma kinds_ok l : Forall2 kind_ok column_kinds (columns_of l).
Proof. unfold column_kinds, columns_of. repeat (constructor; [cbn; try exact I; destruct (l_pos l), (l_size l), (l_seq l), (l_addr l); exact I|]). constructor. Qed.
Definition extra (k : ckind) : nat := match k with CSize => 3 | _ => 1 end%nat.
Lemma column_length w k c s : column_shows w k c s -> length s = (w + extra k)%nat.
Proof. destruct 1; rewrite ?app_length, ?repeat_length; cbn [extra length app B list_ascii_of_string map]; rewrite ?app_length, ?repeat_length; cbn; lia. Qed.
Lemma line_length ks : forall ws cs s, line_shows ks ws cs s -> length s = (list_sum ws + list_sum (map extra ks))%nat.
Proof.
  induction ks; intros ws cs s H; inversion H as [|? ? ? ? ? ? ? ? HC HL]; subst; [reflexivity|]. rewrite app_length, (column_length _ _ _ _ HC), (IHks _ _ _ HL). cbn [map list_sum fold_right]. unfold list_sum. cbn [fold_right]. lia.
Qed.
Theorem print_ok ls out : print_lines ls = Ok out -> exists ws ss, out = flat_map (fun s => s ++ [10]) ss /\
  Forall2 (fun l s => line_shows column_kinds ws (columns_of l) s) ls ss /\ Forall (fun s => length s = list_sum ws + 16)%nat ss.
Proof.
  unfold print_lines. destruct (widths_for (repeat 1%nat 14) ls) as [ws| |] eqn:E; try discriminate. cbn [bind]. intro Q. injection Q as <-.
  destruct (widths_ok ls (repeat 1%nat 14) ws eq_refl E) as [_ W]. exists ws, (map (fun l => line_text column_kinds ws (columns_of l)) ls).
  assert (F : Forall2 (fun l s => line_shows column_kinds ws (columns_of l) s) ls (map (fun l => line_text column_kinds ws (columns_of l)) ls)).
  { clear -W. induction W as [|l ls H W IH]; cbn [map]; constructor; auto. apply line_ok; [apply kinds_ok|exact H]. }
  split; [|split; [exact F|]].
  - clear. induction ls as [|l ls IH]; cbn [flat_map map]; [reflexivity|]. now rewrite IH.
  - clear -F. induction F as [|l s ls ss H F IH]; constructor; auto. rewrite (line_length _ _ _ _ H). reflexivity.
Qed.

(* ---- lines ---- *)
Lemma mem_iff z l : mem z l = true <-> In z l.
Proof. unfold mem. rewrite existsb_exists. split; [intros (x & I & Q); apply Z.eqb_eq in Q; now subst|intro I; exists z; split; [auto|apply Z.eqb_refl]]. Qed.
Lemma oz_eqb_iff a b : oz_eqb a b = true <-> a = b.
Proof. destruct a, b; cbn; split; intro H; try discriminate; try reflexivity; [f_equal; lia|injection H as ->; lia]. Qed.
Lemma oget_in {A} k (l : list (option Z * A)) : NoDup (map fst l) -> forall v, oget k l = Some v <-> In (k, v) l.
Proof.
  induction l as [|[k' v'] l IH]; cbn [oget map fst]; intros ND v; [split; [discriminate|intros []]|]. inversion ND as [|? ? NI ND']; subst. destruct (oz_eqb k k') eqn:Q.
  - apply oz_eqb_iff in Q. subst k'. split; [intro E; injection E as ->; left; auto|intros [E|I]; [now injection E as ->|]]. exfalso. apply NI. apply in_map_iff. exists (k, v). auto.
  - rewrite IH by auto. split; [right; auto|intros [E|I]; [|auto]]. injection E as -> ->. assert (oz_eqb k k = true) by now apply oz_eqb_iff. congruence.
Qed.
Lemma oset_keys {A} k (v : A) l : NoDup (map fst l) -> NoDup (map fst (oset k v l)).
Proof.
  assert (K : forall l x, In x (map fst (oset k v l)) -> x = k \/ In x (map fst l)).
  { clear. induction l as [|[k' v'] l IH]; cbn [oset map fst]; intros x I; [destruct I as [<-|[]]; auto|]. destruct (oz_eqb k k') eqn:Q; cbn [map fst] in I.
    - destruct I as [<-|I]; [right; left; auto|right; right; auto].
    - destruct I as [<-|I]; [right; left; auto|]. destruct (IH x I); [auto|right; right; auto]. }
  induction l as [|[k' v'] l IH]; cbn [oset map fst]; intro ND; [repeat constructor; intros []|]. inversion ND as [|? ? NI ND']; subst. destruct (oz_eqb k k') eqn:Q; cbn [map fst]; constructor; auto.
  intro I. destruct (K _ _ I) as [->|I2]; [|auto]. assert (oz_eqb k k = true) by now apply oz_eqb_iff. congruence.
Qed.
Lemma check_nodup objs : forall seq pos ret ret', NoDup (map fst ret) -> check_sections objs pos ret seq = Ok ret' -> NoDup (map fst ret').
Proof.
  induction seq as [|x seq IH]; intros pos ret ret' ND E; cbn [check_sections] in E; [injection E as <-; auto|]. destruct (section_errors objs pos x) as [[pos' er]| |]; try discriminate. cbn [bind] in E.
  destruct pos' as [p|]; [|discriminate]. eapply IH; [|exact E]. now apply oset_keys.
Qed.
Lemma targets_nodup m seq ret : check_index_targets m seq = Ok ret -> NoDup (map fst ret).
Proof. unfold check_index_targets. destruct (map_keys m); try discriminate. cbn [bind]. apply check_nodup. constructor. Qed.
Lemma marked_iff wrong pos addr : NoDup (map fst wrong) -> (mem addr (wrong_at wrong pos) = true <-> marked wrong pos addr).
Proof.
  intro ND. rewrite mem_iff. unfold wrong_at, marked. destruct (oget pos wrong) as [ks|] eqn:E.
  - apply oget_in in E; [|auto]. rewrite in_flat_map. split.
    + intros (k & I & H). exists ks, k. split; [auto|]. split; [auto|]. destruct k as [n g p|n e p]; cbn [key_addr] in H; [destruct p; try destruct H as []; subst; auto; destruct H|destruct H as [|[]]; auto].
    + intros (er & k & I1 & I2 & H). assert (er = ks). { apply oget_in in I1; [|auto]. apply oget_in in E; [|auto]. congruence. } subst er. exists k. split; [auto|]. destruct k as [n g p|n e p]; cbn [key_addr]; [subst p|subst p]; left; auto.
  - split; [intros []|]. intros (er & k & I1 & _). apply oget_in in I1; [|auto]. congruence.
Qed.
Lemma status_of (l : dline) (b : bool) P yes no : (b = true <-> P) -> l_st l = (if b then yes else no) -> status l P yes no.
Proof. intros H E. unfold status. destruct b; [left; split; [apply H; auto|auto]|right; split; [intro HP; apply H in HP; discriminate|auto]]. Qed.
Lemma obj_info_class show o cl t r f : obj_info show o = Ok (cl, t, r, f) -> cl = class_name o.
Proof.
  destruct o; cbn [obj_info class_name]; intro E; try (injection E; intros; subst; reflexivity).
  - destruct (keys_in_line _ _ _); try discriminate. cbn [bind] in E. destruct (of_opt ETypeError stream) as [s| |]; try discriminate. cbn [bind] in E.
    destruct (match s with [] => _ | _ => _ end); try discriminate. cbn [bind] in E. inversion E. reflexivity.
Qed.
Lemma tiling_le t i rs j : tiling t i rs j -> forall r b, In r rs -> reg_beg r = Some b -> (i <= b)%nat.
Proof.
  induction 1 as [|i r rs j BG LE T IH]; intros r' b I E; [destruct I|]. destruct I as [<-|I].
  - destruct BG as [BG|(o & -> & N & _)]; [rewrite E in BG; injection BG as ->; lia|cbn [reg_beg] in E; congruence].
  - specialize (IH r' b I E). lia.
Qed.
Lemma tiling_unique t i rs j : tiling t i rs j -> forall r r' b, In r rs -> In r' rs -> reg_beg r = Some b -> reg_beg r' = Some b -> r = r'.
Proof.
  induction 1 as [|i r0 rs j BG LE T IH]; intros r r' b I I' E E'; [destruct I|].
  assert (Z : forall x, reg_beg r0 = Some b -> In x rs -> reg_beg x = Some b -> False).
  { intros x E0 Ix Ex. pose proof (tiling_le _ _ _ _ T x b Ix Ex). destruct BG as [BG|(o & -> & N & _)]; [rewrite E0 in BG; injection BG as ->; lia|cbn [reg_beg] in E0; congruence]. }
  destruct I as [<-|I], I' as [<-|I']; [reflexivity|exfalso; eauto|exfalso; eauto|eauto].
Qed.

Section Lines.
Context (show : obj -> bytes).
Lemma entry_line_ok wrong pos num gen off (used : bool) mode : NoDup (map fst wrong) ->
  entry_line wrong pos num gen off used (mk_dline (B "-") None None [] [] None [] (entry_st (wrong_at wrong pos) off) (B "xref") (dec num ++ [44] ++ dec gen) mode (Some off) (if used then B "inuse" else B "free") []).
Proof.
  intro ND. unfold entry_line. cbn [l_macro l_pos l_region l_iref l_addr l_cl]. split; [auto|]. split; [auto|]. split; [auto|]. split; [auto|]. split; [auto|]. split; [auto|].
  eapply status_of; [apply (marked_iff wrong pos off ND)|]. reflexivity.
Qed.
Lemma begins_some f r i : lines_end f -> begins f r i -> (i < length f)%nat -> reg_beg r = Some i.
Proof.
  intros (g & c & -> & HC) [BG|(o & -> & N & F)] LT; [auto|]. exfalso. rewrite app_length in LT. cbn [length] in LT. rewrite skipn_app in F. apply Forall_app in F as [_ F]. replace (i - length g)%nat with 0%nat in F by lia. cbn [skipn] in F. inversion F; lia.
Qed.
(* ---- what the columns say of a region ---- *)
Lemma firstn_part n (c : bytes) : first_part n c (firstn n c).
Proof.
  exists (skipn n c). split; [symmetry; apply firstn_skipn|]. rewrite firstn_length. destruct (Nat.le_gt_cases n (length c)); [left; lia|right]. split; [lia|]. apply skipn_all2. lia.
Qed.
Lemma opens_iff w c : beqb (firstn (length w) c) w = true <-> opens_with w c.
Proof.
  rewrite beqb_eq. split.
  - intro E. exists (skipn (length w) c). rewrite <- E at 1. symmetry. apply firstn_skipn.
  - intros (r & ->). rewrite firstn_app, firstn_all, Nat.sub_diag. cbn [firstn]. apply app_nil_r.
Qed.
Lemma opens_not w c : beqb (firstn (length w) c) w = false -> ~ opens_with w c.
Proof. intros E O. apply opens_iff in O. congruence. Qed.
Lemma hexdig_at a : 0 <= a < 16 -> hexdig_l a = nth (Z.to_nat a) HEX_DIGITS 0.
Proof.
  intro H. assert (C : a = 0 \/ a = 1 \/ a = 2 \/ a = 3 \/ a = 4 \/ a = 5 \/ a = 6 \/ a = 7 \/ a = 8 \/ a = 9 \/ a = 10 \/ a = 11 \/ a = 12 \/ a = 13 \/ a = 14 \/ a = 15) by lia.
  repeat (destruct C as [->|C]; [reflexivity|]). subst a. reflexivity.
Qed.
Lemma hex_lower_text s : hex_text s (hex_lower s).
Proof.
  induction s as [|c s IH]; [constructor|]. unfold hex_lower. cbn [flat_map app]. pose proof (Z.mod_pos_bound (c / 16) 16 ltac:(lia)) as H1. pose proof (Z.mod_pos_bound c 16 ltac:(lia)) as H2.
  rewrite (hexdig_at _ H1), (hexdig_at _ H2). constructor; auto.
  change 256 with (16 * 16). rewrite Z.rem_mul_r by lia. lia.
Qed.
Lemma comment_detail_shown c t : comment_detail c = Ok t -> comment_shown c t.
Proof.
  unfold comment_detail. destruct (beqb (firstn 4 c) (B "%PDF")) eqn:E1.
  - unfold decode_ascii. destruct (forallb _ _); [|discriminate]. intro E. injection E as <-. apply Cs_header; [apply opens_iff; exact E1|apply firstn_part].
  - destruct (beqb (firstn 5 c) (B "%%EOF")) eqn:E2.
    + assert (E2' : firstn 5 c = B "%%EOF") by now apply beqb_eq. rewrite E2'. intro E. injection E as <-. apply Cs_end. apply opens_iff. exact E2.
    + pose proof (opens_not (B "%PDF") c E1) as N1. pose proof (opens_not (B "%%EOF") c E2) as N2. unfold decode_ascii. destruct (forallb (fun c => c <? 128) (firstn 10 c)) eqn:FA; intro E; injection E as <-.
      * apply Cs_text; auto; [apply firstn_part|]. apply Forall_forall. intros x I. rewrite forallb_forall in FA. apply FA in I. lia.
      * apply Cs_hex with (p := firstn 10 c); auto; [apply firstn_part| |apply hex_lower_text]. intro A. assert (forallb (fun c => c <? 128) (firstn 10 c) = true); [|congruence]. apply forallb_forall. intros x I. unfold ascii_text in A. rewrite Forall_forall in A. apply A in I. lia.
Qed.
Lemma filter_short_shown o : filter_shown o (filter_short o).
Proof.
  destruct o as [| | | |s| | | | |]; try (apply Fs_other; intros n Q; discriminate). unfold filter_short.
  repeat match goal with |- filter_shown _ (if beqb s ?w then ?v else _) => let E := fresh "E" in destruct (beqb s w) eqn:E;
    [apply beqb_eq in E; subst s; change (filter_shown (PStr w) (B "_" ++ tl v)); apply Fs_known; vm_compute; tauto|] end.
  apply Fs_other. intros n Q I. injection Q as <-. cbn [map fst short_names In] in I. decompose [or] I; subst; vm_compute in *; congruence.
Qed.
Lemma filters_in_line_shown d : filters_shown (dget K_Filter d) (filters_in_line (match dget K_Filter d with Some f => f | None => PNone end)).
Proof.
  destruct (dget K_Filter d) as [o|]; [|apply Fi_absent]. destruct o as [| | | | | | |l| |]; cbn [filters_in_line]; try (apply Fi_one; [discriminate|apply filter_short_shown]).
  rewrite flat_map_concat_map. apply Fi_list. induction l; constructor; auto. apply filter_short_shown.
Qed.
Lemma keys_text_shown d ks : exists ts, keys_text show d ks = concat ts /\ Forall2 (key_shown show d) ks ts.
Proof.
  induction ks as [|k ks (ts & E & F)]; [exists []; split; [auto|constructor]|]. cbn [keys_text]. rewrite E.
  eexists (_ :: ts). split; [cbn [concat]; reflexivity|]. constructor; [|auto].
  destruct (dget k d) as [v|] eqn:G; [|apply Ks_absent; auto]. destruct v; try (apply Ks_value with (v := _); [exact G|discriminate|discriminate]); [apply Ks_absent; auto|apply Ks_ref; exact G].
Qed.
Lemma keys_in_line_shown d ks t : keys_in_line show (PDict d) ks = Ok t -> keys_shown show d ks t.
Proof.
  cbn [keys_in_line]. destruct (keys_text_shown d ks) as (ts & -> & F). intro E. injection E as <-. eexists _, _, ts. split; [reflexivity|]. split; [|split; [|exact F]].
  - destruct (dget K_Type d) as [v|] eqn:G; [|apply Ts_absent; auto]. destruct v; try (apply Ts_value with (v := _); [exact G|discriminate]). apply Ts_absent. auto.
  - unfold dhas. destruct (dget (B "/JS") d) as [v|] eqn:G; [eapply Js_some; eauto|apply Js_none; auto].
Qed.
Lemma obj_info_shown o cl t r f l : obj_info show o = Ok (cl, t, r, f) -> l_cl l = cl -> l_detail l = t -> l_ratio l = r -> l_filters l = f -> object_shown show o l.
Proof.
  intros E C D R F. destruct o as [| | | | | | | |d|d s e]; cbn [obj_info] in E; try (injection E as <- <- <- <-; apply Os_other; auto; discriminate).
  - destruct (keys_in_line show (PDict d) [K_Linearized]) as [x| |] eqn:K; try discriminate. cbn [bind] in E. injection E as <- <- <- <-. apply Os_dict; auto. rewrite D. apply keys_in_line_shown. exact K.
  - destruct (keys_in_line show (PDict d) _) as [x| |] eqn:K; try discriminate. cbn [bind] in E. destruct s as [s|]; [|discriminate]. cbn [of_opt bind] in E.
    assert (exists r', Ok r' = match s with [] => Ok (B "!!") | _ :: _ => let* e0 := of_opt ETypeError e in Ok (dec (blen e0 * 100 / blen s) ++ [37]) end /\ ratio_shown s e r') as (r' & ER & RS).
    { destruct s as [|c s]; [exists (B "!!"); split; [auto|constructor]|]. destruct e as [e|]; [|discriminate]. cbn [of_opt bind]. eexists. split; [reflexivity|]. apply Rs_some; [unfold blen; cbn [length]; lia|].
      assert (P : 0 < blen (c :: s)) by (unfold blen; cbn [length]; lia). pose proof (Z.div_mod (blen e * 100) (blen (c :: s)) ltac:(lia)). pose proof (Z.mod_pos_bound (blen e * 100) (blen (c :: s)) P). nia. }
    rewrite <- ER in E. cbn [bind] in E. injection E as <- <- <- <-. apply Os_stream; auto; [rewrite D; apply keys_in_line_shown; exact K|rewrite R; exact RS|rewrite F; apply filters_in_line_shown].
Qed.
Lemma item_ok t m seq wrong un x ls j : NoDup (map fst wrong) -> check_not_indexed_objects m seq = Ok un -> tiling t 0 (regions m) j -> In x m ->
  (forall o rp, x = ItReg (RInd o) rp -> exists b, i_beg o = Some b) ->
  item_lines show t wrong un x = Ok ls -> listed_as show t seq wrong x ls.
Proof.
  intros ND UN TL IX HB E. destruct x as [[b e|b e|b e v|o|x] rp|bo d tab|bo k e]; cbn [item_lines] in E.
  - injection E as <-. apply La_void. repeat split.
  - destruct (comment_detail (sub t b e)) as [c| |] eqn:CD; try discriminate. injection E as <-. apply La_comment; [repeat split|]. apply comment_detail_shown. exact CD.
  - destruct (py_int 10 v) as [n|] eqn:Q; cbn [of_opt bind] in E; [|discriminate]. injection E as <-. eapply La_start; [repeat split|exact Q|reflexivity].
  - destruct (HB o rp eq_refl) as (b & EB). rewrite EB in E. destruct (obj_info show (i_obj o)) as [[[[cl tx] r] f]| |] eqn:OI; try discriminate. cbn [bind] in E. injection E as <-.
    apply La_object with (b := b); [auto|repeat split|reflexivity|eapply obj_info_shown; [exact OI|reflexivity..]|].
    eapply status_of; [|reflexivity]. rewrite mem_iff, in_flat_map. pose proof (unindexed_reported _ _ _ UN) as UR. split.
    + intros (q & I1 & I2). destruct q as [n g p|]; [|destruct I2]. destruct p as [z| |]; try (destruct I2; fail). destruct I2 as [->|[]]. apply UR in I1 as ((y & Iy & OA) & NX).
      inversion OA as [o' rp' b' EB'|]; subst. assert (b' = b) by lia. subst b'. assert (RInd o' = RInd o).
      { apply (tiling_unique _ _ _ _ TL (RInd o') (RInd o) b); auto; apply in_flat_map; [exists (ItReg (RInd o') rp')|exists (ItReg (RInd o) rp)]; split; auto; left; auto. }
      injection H as ->. exact NX.
    + intro NX. exists (KDir (i_num o) (i_gen o) (AInt (Z.of_nat b))). split; [|left; auto]. apply UR. split; [|exact NX]. exists (ItReg (RInd o) rp). split; [auto|]. now constructor.
  - destruct (xt_trailer x) as [| | | | | | | |d|] eqn:XT; try discriminate. destruct (keys_in_line show (PDict d) _) as [c| |] eqn:KD; try discriminate. cbn [bind] in E. injection E as <-.
    apply La_table; [repeat split| |].
    { rewrite XT. cbn [plus l_detail]. unfold dhas in KD. destruct (dget (B "/XRefStm") d) as [v|] eqn:GX; [eapply Tr_hybrid; [exact GX|]|apply Tr_plain; [exact GX|]]; apply keys_in_line_shown; exact KD. } clear IX HB XT. unfold entries_of. induction (xt_lines x) as [|y l IH]; cbn [flat_map]; [constructor|]. destruct y as [a b|off num gen kw]; cbn [table_entry app]; [exact IH|].
    constructor; [|exact IH]. apply entry_line_ok. exact ND.
  - injection E as <-. apply La_stream. clear IX HB. induction tab as [|[y p] l IH]; cbn [map]; constructor; auto.
    + cbn [fst]. split; [|cbn [stream_entry l_mode]; destruct (xs_env y); reflexivity]. pose proof (entry_line_ok wrong (oz bo) (xs_num y) (xs_gen y) (xs_off y) (negb (xs_free y)) (match xs_env y with None => B "abs" | Some e => dec e ++ [44] end) ND) as H.
      unfold stream_entry. destruct (xs_free y); exact H.
  - destruct (e_num e) as [| |n| | | | | | |] eqn:EN; try discriminate. cbn [bind] in E. destruct (e_env e =? 0); [discriminate|]. destruct (obj_info show (e_obj e)) as [[[[cl tx] r] f]| |] eqn:OI; try discriminate. cbn [bind] in E. injection E as <-.
    eapply La_embedded; try reflexivity; eauto. eapply obj_info_shown; [exact OI|reflexivity..].
Qed.
Lemma minus_lines i ls j rest : Forall (fun l => l_macro l = B "-") ls -> covering i rest j -> covering i (ls ++ rest) j.
Proof. induction 1; intro C; cbn [app]; [auto|]. apply Cv_other; auto. Qed.
Lemma covers f seq wrong : lines_end f -> forall m lss, Forall2 (listed_as show f seq wrong) m lss -> forall i j, tiling f i (regions m) j -> covering (Z.of_nat i) (concat lss) (Z.of_nat j).
Proof.
  intros LE. induction 1 as [|x ls m lss L F IH]; intros i j T; cbn [concat].
  - cbn [regions flat_map] in T. inversion T; subst. constructor.
  - assert (R : forall r rp b e l rest, x = ItReg r rp -> ls = l :: rest -> reg_beg r = Some b -> reg_end r = e -> l_macro l = B "+" /\ l_pos l = Some (Z.of_nat b) /\ l_size l = Some (Z.of_nat e - Z.of_nat b) ->
       Forall (fun l => l_macro l = B "-") rest -> covering (Z.of_nat i) (ls ++ concat lss) (Z.of_nat j)).
    { intros r rp b e l rest -> -> EB EE (M1 & M2 & M3) FM. cbn [regions flat_map app] in T. inversion T as [|i' r' rs j' BG LT T']; subst. rewrite (begins_some _ _ _ LE BG ltac:(lia)) in EB. injection EB as ->.
      cbn [app]. eapply Cv_main; [auto|exact M2|exact M3|lia|]. apply minus_lines; [auto|]. replace (Z.of_nat b + (Z.of_nat (reg_end r) - Z.of_nat b)) with (Z.of_nat (reg_end r)) by lia. apply IH. exact T'. }
    destruct L as [b e rp l (M1 & M2 & M3 & _) _|b e rp l (M1 & M2 & M3 & _)|b e v rp l n (M1 & M2 & M3 & _) _ _|x rp l ls (M1 & M2 & M3 & _) _ FE|o rp l b EB (M1 & M2 & M3 & _) _ _ _|bo d tab ls FE|bo k e n l EN M].
    + eapply R; [reflexivity|reflexivity|reflexivity|reflexivity|auto|constructor].
    + eapply R; [reflexivity|reflexivity|reflexivity|reflexivity|auto|constructor].
    + eapply R; [reflexivity|reflexivity|reflexivity|reflexivity|auto|constructor].
    + eapply R; [reflexivity|reflexivity|reflexivity|reflexivity|auto|]. clear -FE. induction FE as [|[[[a b] c] k] y l' l2 H F IH]; constructor; auto. apply H.
    + eapply R; [reflexivity|reflexivity|exact EB|reflexivity|auto|constructor].
    + apply minus_lines; [|now apply IH]. clear -FE. induction FE as [|a y l' l2 H F IH]; constructor; auto. apply H.
    + apply minus_lines; [constructor; [auto|constructor]|now apply IH].
Qed.
Lemma all_lines_ok t m0 seq wrong un j : NoDup (map fst wrong) -> check_not_indexed_objects m0 seq = Ok un -> tiling t 0 (regions m0) j -> forall m, incl m m0 ->
  (forall o rp, In (ItReg (RInd o) rp) m0 -> exists b, i_beg o = Some b) ->
  forall ls, all_lines show t wrong un m = Ok ls -> exists lss, ls = concat lss /\ Forall2 (listed_as show t seq wrong) m lss.
Proof.
  intros ND UN TL. induction m as [|x m IH]; intros IN HB ls E; cbn [all_lines] in E.
  - injection E as <-. exists []. split; [auto|constructor].
  - destruct (item_lines show t wrong un x) as [a| |] eqn:EA; try discriminate. cbn [bind] in E. destruct (all_lines show t wrong un m) as [b| |] eqn:EB; try discriminate. injection E as <-.
    destruct (IH ltac:(intros y I; apply IN; right; auto) HB b eq_refl) as (lss & -> & F). exists (a :: lss). split; [reflexivity|]. constructor; [|auto].
    eapply item_ok; eauto; [apply IN; left; auto|]. intros o rp ->. apply (HB o rp). apply IN. left. auto.
Qed.
Context {ZL : Zlib}.
Theorem disasm_ok fuel f out : lines_end f -> dump_disasm show fuel (PvSingle f) = Ok out ->
  exists m seq nxt nb wrong lss ws ss j, file_object_map (PvSingle f) = Ok m /\ build_xref_sequence fuel (PvSingle f) = Ok (seq, nxt, nb) /\ check_index_targets m seq = Ok wrong /\
    Forall2 (listed_as show f seq wrong) m lss /\ covering 0 (concat lss) (Z.of_nat j) /\ (j = length f \/ (j < length f)%nat /\ parse_region f j = Ok None) /\
    out = flat_map (fun s => s ++ [10]) ss /\ Forall2 (fun l s => line_shows column_kinds ws (columns_of l) s) (concat lss) ss /\ Forall (fun s => length s = list_sum ws + 16)%nat ss.
Proof.
  intros LE E. assert (NE : f <> []) by (destruct LE as (g & c & -> & _); destruct g; discriminate). unfold dump_disasm, disasm_lines in E.
  destruct (file_object_map (PvSingle f)) as [m| |] eqn:EM; try discriminate. cbn [bind] in E. destruct (build_xref_sequence fuel (PvSingle f)) as [[[seq nxt] nb]| |] eqn:ES; try discriminate. cbn [bind] in E.
  destruct (check_index_targets m seq) as [wrong| |] eqn:EW; try discriminate. cbn [bind] in E. destruct (check_not_indexed_objects m seq) as [un| |] eqn:EU; try discriminate. cbn [bind] in E.
  assert (RT : exists n, read_at (PvSingle f) 0 (-1) = Ok (f, 0%nat, n)).
  { unfold read_at. cbn [run_prov]. assert (LB : blen f <> 0) by (unfold blen; destruct f; [congruence|cbn [length]; lia]). replace (blen f =? 0) with false by lia.
    replace ((0 + blen f) mod blen f) with 0 by (rewrite Z.add_0_l, Z.mod_same; auto). change (-1 =? -1) with true. cbn [bind]. change (0 <? 0) with false. cbn [bind]. eexists. reflexivity. }
  destruct RT as (n & RT). rewrite RT in E. cbn [bind] in E. destruct (all_lines show f wrong un m) as [ls| |] eqn:EL; try discriminate. cbn [bind] in E.
  destruct (object_map_tiles f m NE EM) as (j & TL & DJ).
  assert (HB : forall o rp, In (ItReg (RInd o) rp) m -> exists b, i_beg o = Some b).
  { assert (G : forall i rs k, tiling f i rs k -> forall o, In (RInd o) rs -> exists b, i_beg o = Some b).
    { clear -LE. induction 1 as [|i r rs j BG LT T IH]; intros o I; [destruct I|]. destruct I as [->|I]; [|auto]. exists i. exact (begins_some f (RInd o) i LE BG ltac:(lia)). }
    intros o rp I. apply (G _ _ _ TL). apply in_flat_map. exists (ItReg (RInd o) rp). split; [auto|left; auto]. }
  destruct (all_lines_ok f m seq wrong un j (targets_nodup _ _ _ EW) EU TL m (incl_refl _) HB ls EL) as (lss & -> & F).
  destruct (print_ok _ _ E) as (ws & ss & O1 & O2 & O3).
  exists m, seq, nxt, nb, wrong, lss, ws, ss, j. split; [auto|]. split; [auto|]. split; [auto|]. split; [auto|]. split; [change 0 with (Z.of_nat 0); eapply covers; eauto|]. auto.
Qed.
End Lines.
