(* C106: files with xref tables, xref streams and object streams, as other programs write them *)
From Coq Require Import String ZifyBool ZifyNat.
From Verif Require Import PyBase Model_Filters Model_Objects Model_Filestruct Model_Docstruct Model_Api Spec_Objects Spec_Filestruct Spec_Docstruct Spec_Api Spec_Save Spec_Packed Spec_Foreign Spec_Syntax Spec_Files Spec_Streams Spec_Sections.
From Verif Require Import Facts_Base Facts_Token Facts_Obj Facts_Ser Facts_Parse Facts_Top Facts_Prov Facts_Write Facts_Xref Facts_Doc Facts_Commit Facts_Save Facts_Chain Facts_Stays Facts_Syntax Facts_Stored Facts_Tables.
From Verif Require Import Facts_Index Facts_Revision Facts_Foreign Facts_Files Facts_XText Facts_ObjText Facts_Xstm.

Section WithZlib.
Context {ZL : Zlib}.

(* ---------- entries ---------- *)
Definition place_entry (n : Z) (p : place) : list ient :=
  if n =? 0 then [] else match p with
  | Free => []
  | At off gen => [with_pos (Some (AInt off)) (ient0 n gen)]
  | Inside env idx => [with_opos (Some idx) (with_env (Some env) (with_pos (Some (ATup env idx)) (ient0 n 0)))]
  end.
Definition entries_of (s : fsection) : list ient := flat_map (fun q => place_entry (fst q) (snd q)) (fs_list s).

Lemma used_places l : used l = flat_map (fun q => place_entry (fst q) (snd q)) (table_places l).
Proof.
  unfold used, table_places, sub_lines. induction l as [|[n es] l IH]; [reflexivity|]. cbn [flat_map fst snd app xtab_entry]. rewrite !flat_map_app, IH. f_equal. clear.
  revert n. induction es as [|x es IH]; intro n; [reflexivity|]. cbn [ent_lines entry_places flat_map fst snd]. rewrite IH. f_equal. unfold place_entry, entry_place. cbn [xtab_entry].
  destruct (te_use x); [change (beqb [110] [102]) with false|change (beqb [102] [102]) with true]; cbn [negb andb]; destruct (n =? 0); reflexivity.
Qed.
Lemma rows_places l : flat_map (fun p => row_entry (fst p) (snd p)) l = flat_map (fun q => place_entry (fst q) (snd q)) (map (fun p => (fst p, row_place (snd p))) l).
Proof.
  induction l as [|[n x] l IH]; [reflexivity|]. cbn [flat_map map fst snd]. rewrite IH. f_equal. unfold row_entry, place_entry, row_place. destruct (n =? 0); auto. destruct (xr_type x =? 1); auto. destruct (xr_type x =? 2); auto.
Qed.
Lemma entries_in s e : In e (entries_of s) <-> exists n p, In (n, p) (fs_list s) /\ n <> 0 /\ p <> Free /\
  match p with Free => False | At off gen => e = with_pos (Some (AInt off)) (ient0 n gen)
  | Inside env idx => e = with_opos (Some idx) (with_env (Some env) (with_pos (Some (ATup env idx)) (ient0 n 0))) end.
Proof.
  unfold entries_of. rewrite in_flat_map. split.
  - intros ([n p] & I & J). cbn [fst snd] in J. unfold place_entry in J. destruct (n =? 0) eqn:N; [destruct J|]. exists n, p. split; auto. split; [lia|]. destruct p; [destruct J| |]; (split; [discriminate|]); destruct J as [<-|[]]; reflexivity.
  - intros (n & p & I & N & NF & E). exists (n, p). split; auto. cbn [fst snd]. unfold place_entry. replace (n =? 0) with false by lia. destruct p; [congruence| |]; left; auto.
Qed.

(* ---------- an xref stream in the file ---------- *)
Lemma xstream_rvd d nums rows data : NoDup (map fst d) -> xstream_text d nums rows data -> xstream_text (rvd d) nums rows data.
Proof.
  intros ND (a & b & c & PA & DW & DI & R & L). exists a, b, c. split; auto. rewrite !dget_rvd by auto. rewrite DW. split; [reflexivity|]. split; [|auto].
  destruct DI as [(l & DI & I)|(n & PN & D1 & D2 & E)].
  - left. exists l. rewrite DI. split; auto. cbn [option_map rv]. f_equal. f_equal. clear - I. induction I; cbn; congruence.
  - right. exists n. rewrite D1, D2. auto.
Qed.
Lemma stream_tokens k g d c enc txt : object_text k g (PStream d c enc) txt -> NoDup (map fst d) /\ 0 <= k /\ forall pre post, exists j1 j2 j3 i2 i3 i4 j4 x1 x2 x3 x4,
  let t := pre ++ txt ++ post in
  next_token t (length pre) = (length pre, j1, x1) /\ next_token t j1 = (i2, j2, x2) /\ next_token t j2 = (i3, j3, x3) /\ next_token t j3 = (i4, j4, x4) /\
  parse_obj t (length pre) = Ok (PInt k) /\ parse_obj t i4 = Ok (PStream (rvd d) c enc) /\
  beqb (sub t (length pre) (length pre + 4)) W_xref = false /\ beqb (sub t (length pre) j1) W_trailer = false.
Proof.
  intro OT. pose proof (stored_rd _ _ _ _ OT) as [_ R]. destruct OT as (a & w1 & b & w2 & w3 & s & g4 & -> & NA & FA & -> & NB & FB & -> & W1 & N1 & W2 & N2 & W3 & N3 & C & G & SEP).
  split. { inversion C as [o0 s0 SP|s0|d0 s0 w e1 enc0 e2 sc SP]; subst; [inversion SP|]. inversion SP; auto. }
  split; [apply decimal_pos; auto|]. intros pre post. destruct (R pre post) as [OR _]. unfold object_read in OR. destruct (digits_token a NA FA) as [TA PA].
  set (t := pre ++ (a ++ w1 ++ b ++ w2 ++ B "obj" ++ w3 ++ s ++ g4 ++ B "endobj") ++ post) in *.
  assert (T1 : next_token t (length pre) = (length pre, length (pre ++ a), Some TInteger)).
  { pose proof (next_token_white pre [] a TInteger (w1 ++ (b ++ w2 ++ B "obj" ++ w3 ++ s ++ g4 ++ B "endobj") ++ post) ltac:(constructor) TA (or_intror (white_sepstart w1 _ W1 N1))) as N.
    change ([] ++ ?x) with x in N. rewrite app_nil_r in N. unfold t. rewrite <- !app_assoc. rewrite <- !app_assoc in N. rewrite N, app_length. reflexivity. }
  rewrite T1 in OR. destruct (next_token t (length (pre ++ a))) as [[i2 j2] x2] eqn:T2. destruct (next_token t j2) as [[i3 j3] x3] eqn:T3. destruct (next_token t j3) as [[i4 j4] x4] eqn:T4.
  exists (length (pre ++ a)), j2, j3, i2, i3, i4, j4, (Some TInteger), x2, x3, x4. split; auto. split; auto. split; auto. split; auto.
  destruct a as [|c0 a]; [congruence|]. assert (DC : 48 <= c0 <= 57) by (apply Forall_inv in FA; red in FA; lia). split; [|split; [exact OR|]].
  - unfold t. rewrite <- !app_assoc. change (PInt (decimal (c0 :: a))) with (rv (PInt (decimal (c0 :: a)))). apply (spelled_rv (PInt (decimal (c0 :: a))) (c0 :: a)); [|discriminate|].
    + apply sp_int. exists 1, [], (c0 :: a). split; auto. split; [constructor|]. split; auto. split; auto. lia.
    + split; [right; apply sep_iff; now apply white_sepstart|]. exists w1, ((b ++ w2 ++ B "obj" ++ w3 ++ s ++ g4 ++ B "endobj") ++ post). split; [rewrite <- !app_assoc; reflexivity|]. split; [apply white_gap; auto|].
      right. destruct b as [|c1 b]; [congruence|]. exists c1; eexists. split; [reflexivity|]. apply Forall_inv in FB. split; [right; auto|]. intros [r Q]. red in FB. cbn in Q. injection Q as Q _. lia.
  - split.
    + apply beqb_neq. intro Q. apply (f_equal (hd 0)) in Q. unfold t, sub in Q. rewrite skipn_app_len in Q. cbn [hd] in Q. replace (length pre + 4 - length pre)%nat with 4%nat in Q by lia. cbn in Q. lia.
    + replace (sub t (length pre) (length (pre ++ c0 :: a))) with (c0 :: a) by (symmetry; unfold t; rewrite <- !app_assoc; apply sub_app_exact; [auto|rewrite app_length; reflexivity]).
      apply beqb_neq. intro Q. cbn in Q. injection Q as Q _. lia.
Qed.

(* the head of a section *)
Definition head_of (s : fsection) (tp : Z) (h : ient) : Prop :=
  n_num h = 0 /\ n_env h = None /\ n_next h = None /\ n_del h = false /\ n_pos h = Some (AInt tp) /\ n_xsn h = fs_num s /\
  (match n_xt h with Some p => Some p | None => n_xs h end) = Some (Z.of_nat (fs_pos s)).
Lemma section_found F s : section_in F s -> (forall n env idx, In (n, Inside env idx) (fs_list s) -> env <> 0) -> (fs_pos s + length (fs_text s) < length F)%nat /\ exists tp h, head_of s tp h /\
  Z.of_nat (fs_pos s) <= tp < Z.of_nat (fs_pos s + length (fs_text s)) /\ forall X,
  (forall last startx, Z.of_nat (fs_pos s) <= last -> Z.of_nat (fs_pos s) <= startx -> read_section (PvSingle (F ++ X)) (Z.of_nat (fs_pos s)) last startx
     = Ok (h :: entries_of s, rvd (fs_trailer s), F ++ X)) /\
  trailer_read (F ++ X) (Z.to_nat tp) = Ok (rvd (fs_trailer s)).
Proof.
  intros (T & P0 & pre & g & post & EF & L & G) NZ. destruct T as [pos l d txt T|pos nums rows k gen d data enc txt OT XT]; cbn [fs_pos fs_text fs_trailer fs_list fs_num] in *.
  - set (u := mk_ftable pos l d txt). assert (TI : table_in F u) by (split; [exact T|]; split; [exact P0|]; exists pre, g, post; auto).
    destruct (table_found F u TI) as (TL & tp & TP & RS). split; [exact TL|]. exists tp, (section_entry (Z.of_nat pos) tp). split; [repeat split|]. split; [exact TP|]. intro X. destruct (RS X) as [R1 R2]. split; [|exact R2].
    intros last startx A _. specialize (R1 last startx A). unfold u in R1. cbn [ft_pos ft_list ft_trailer] in R1. rewrite R1. unfold entries_of. cbn [fs_list]. rewrite used_places. reflexivity.
  - destruct (stream_tokens _ _ _ _ _ _ OT) as (ND & K0 & TK).
    assert (LF : (length F = length pre + length txt + length g + 9 + length post)%nat) by (rewrite EF, !app_length; change (length (B "startxref")) with 9%nat; lia).
    assert (LT : (0 < length txt)%nat). { destruct OT as (a & w1 & b & w2 & w3 & s & g4 & -> & NA & _). rewrite app_length. destruct a; [congruence|cbn; lia]. }
    split; [lia|]. eexists (Z.of_nat pos), (with_xsn (Some k) (with_xs (Some (Z.of_nat pos)) (with_pos (Some (AInt (Z.of_nat pos))) (ient0 0 0)))). split; [repeat split|]. split; [lia|]. intro X.
    destruct (TK pre (g ++ B "startxref" ++ post ++ X)) as (j1 & j2 & j3 & i2 & i3 & i4 & j4 & x1 & x2 & x3 & x4 & T1 & T2 & T3 & T4 & PA & PS & NX & NT). cbv zeta in *.
    replace (pre ++ txt ++ g ++ B "startxref" ++ post ++ X) with (F ++ X) in * by (rewrite EF, <- !app_assoc; reflexivity). rewrite L in *. rewrite Nat2Z.id. split.
    + intros last startx A1 A2. destruct (single_at (F ++ X) pos (last - Z.of_nat pos)) as (m1 & RA1); [rewrite app_length; lia|lia|]. destruct (single_at (F ++ X) pos (startx - Z.of_nat pos)) as (m2 & RA2); [rewrite app_length; lia|lia|].
      unfold read_section. rewrite RA1. cbn [bind]. rewrite NX, RA2. cbn [bind]. rewrite T1, PA. cbn [bind]. rewrite T2, T3, T4, PS. cbn [bind].
      rewrite (xstream_index (rvd d) nums rows data _ _ (xstream_rvd _ _ _ _ ND XT)). 2:{ apply Forall_forall. intros x I TY. apply In_nth_error in I as [m M]. destruct XT as (a & b & c & _ & _ & _ & _ & LR). destruct (nth_error nums m) as [n|] eqn:EN.
        - apply (NZ n (xr_two x) (xr_three x)). apply in_map_iff. exists (n, x). split; [|apply in_combine_nth; eauto]. cbn [fst snd]. unfold row_place. rewrite TY. reflexivity.
        - apply nth_error_None in EN. assert (m < length rows)%nat by (apply nth_error_Some; congruence). lia. }
      cbn [bind]. unfold entries_of. cbn [fs_list]. rewrite rows_places. reflexivity.
    + unfold trailer_read. rewrite T1, NT, T2, T3, T4, PS. reflexivity.
Qed.

(* ---------- the sections found ---------- *)
Definition part_of (F : bytes) (s : fsection) (c : list ient) : Prop :=
  exists tp h sx ep, c = close_section (h :: entries_of s) false sx ep /\ head_of s tp h /\
    Z.of_nat (fs_pos s) <= tp < Z.of_nat (fs_pos s + length (fs_text s)) /\ 0 <= ep < blen F /\
    trailer_read F (Z.to_nat tp) = Ok (rvd (fs_trailer s)).
Definition calm_trailer (s : fsection) : Prop := dget (B "/XRefStm") (fs_trailer s) = None /\ wfv (PDict (fs_trailer s)).
Definition nonzero (s : fsection) : Prop := forall n env idx, In (n, Inside env idx) (fs_list s) -> env <> 0.
Lemma back_of s q : calm_trailer s -> dget (B "/Prev") (fs_trailer s) = q -> int_entry K_XRefStm (rvd (fs_trailer s)) = Ok 0 /\ dhas K_XRefStm (rvd (fs_trailer s)) = false /\
  int_entry K_Prev (rvd (fs_trailer s)) = match q with None => Ok 0 | Some (PInt z) => Ok z | _ => int_entry K_Prev (rvd (fs_trailer s)) end.
Proof.
  intros [P1 W] P2. pose proof (wfv_nodup _ W) as ND. unfold int_entry, dhas. rewrite !dget_rvd by auto.
  change (B "/XRefStm") with K_XRefStm in P1. change (B "/Prev") with K_Prev in P2. rewrite P1, P2. cbn [option_map]. split; auto. split; auto. destruct q as [[]|]; auto.
Qed.
Definition ended (F : bytes) (s : fsection) : Prop := exists b l, F = b ++ W_EOF ++ l /\ (fs_pos s <= length b)%nat.

Lemma parts_found F ts : joined ts -> Forall (section_in F) ts -> Forall nonzero ts -> Forall calm_trailer ts -> Forall (ended F) ts -> exists cs, Forall2 (part_of F) ts cs /\
  forall X f, (length ts <= f)%nat -> xref_chain f (PvSingle (F ++ X)) (F ++ X) (match ts with s :: _ => Z.of_nat (fs_pos s) | [] => 0 end) 0 = Ok cs.
Proof.
  assert (STEP : forall s q, calm_trailer s -> section_in F s -> nonzero s -> ended F s -> int_entry K_Prev (rvd (fs_trailer s)) = Ok q -> exists c, part_of F s c /\
    forall X f r, xref_chain f (PvSingle (F ++ X)) (F ++ X) q 0 = Ok r -> xref_chain (S f) (PvSingle (F ++ X)) (F ++ X) (Z.of_nat (fs_pos s)) 0 = Ok (c :: r)).
  { intros s q PL TI NZ (b & l & EB & LB) Q. destruct (section_found F s TI NZ) as (TL & tp & h & HH & TP & RS). pose proof TI as (_ & P0 & pre & g & post & EF & LP & _).
    destruct (find_within W_startxref pre (fs_text s ++ g) post ltac:(discriminate)) as (sx & FX & SX).
    replace (pre ++ (fs_text s ++ g) ++ W_startxref ++ post) with F in FX by (rewrite EF, <- !app_assoc; reflexivity). rewrite LP in FX, SX.
    destruct (find_within W_EOF (firstn (fs_pos s) b) (skipn (fs_pos s) b) l ltac:(discriminate)) as (ep & FE & EP).
    assert (EQ : firstn (fs_pos s) b ++ skipn (fs_pos s) b ++ W_EOF ++ l = F) by (rewrite app_assoc, firstn_skipn; auto).
    rewrite EQ in FE, EP. rewrite firstn_length, Nat.min_l in FE, EP by auto.
    exists (close_section (h :: entries_of s) false (Z.of_nat sx) (Z.of_nat ep)). split.
    - exists tp, h, (Z.of_nat sx), (Z.of_nat ep). split; [reflexivity|]. split; [auto|]. split; [auto|]. split; [unfold blen; lia|]. destruct (RS []) as [_ T]. now rewrite app_nil_r in T.
    - intros X f r XC. cbn [xref_chain]. replace (Z.of_nat (fs_pos s) =? 0) with false by lia. cbn [andb]. change (0 =? 0) with true. cbv iota.
      replace (Z.of_nat (fs_pos s) <? 0) with false by lia. rewrite Nat2Z.id.
      rewrite (find_grow W_startxref F X (fs_pos s) _ ltac:(discriminate) ltac:(lia) FX), (find_grow W_EOF F X (fs_pos s) _ ltac:(discriminate) ltac:(lia) FE). cbn [znat].
      destruct (RS X) as [R1 _]. rewrite R1 by lia. cbn [bind]. change (0 =? 0) with true. cbv iota. destruct (back_of s _ PL eq_refl) as (A1 & A2 & _). rewrite A1, Q, A2. cbn [bind]. rewrite XC. reflexivity. }
  intros LK. induction LK as [s P|s s' r P GE LK IH]; intros FT FN FP FE.
  - inversion FT; inversion FN; inversion FP; inversion FE; subst. destruct (back_of s None ltac:(auto) P) as (_ & _ & Q). destruct (STEP s 0) as (c & SC & ST); auto.
    exists [c]. split; [repeat constructor; auto|]. intros X f LF. destruct f as [|f]; [cbn in LF; lia|]. apply ST. destruct f; reflexivity.
  - inversion FT; inversion FN; inversion FP; inversion FE; subst. destruct (back_of s _ ltac:(eauto) P) as (_ & _ & Q). destruct (STEP s (Z.of_nat (fs_pos s'))) as (c & SC & ST); auto.
    destruct IH as (cs & SS & XC); auto. exists (c :: cs). split; [constructor; auto|]. intros X f LF. destruct f as [|f]; [cbn in LF; lia|]. apply ST. apply XC. cbn [length] in *. lia.
Qed.

(* ---------- what the sections list ---------- *)
Lemma at_bounds F n off gen o : object_at F n off gen o -> 0 <= n /\ 0 <= off < blen F.
Proof. intro H. apply (object_bounds F n (mk_tabent off gen true) o). exact H. Qed.
Lemma at_found F n off gen o : object_at F n off gen o -> forall X, object_read (F ++ X) (Z.to_nat off) = Ok (rd o).
Proof.
  intros (pre & txt & post & EF & L & OT) X. destruct (stored_rd _ _ _ _ OT) as (_ & R). rewrite <- L, Nat2Z.id. destruct (R pre (post ++ X)) as [R1 _]. rewrite EF, <- !app_assoc. exact R1.
Qed.
Lemma file_nonzero F ts : sections_file F ts -> Forall nonzero ts.
Proof.
  intro SF. apply Forall_forall. intros s I n env idx J. apply in_split in I as (l1 & l2 & E). exact (proj1 (sf_inside _ _ SF l1 s l2 n env idx E J)).
Qed.
(* an entry of a section, by its place *)
Definition entry_in (F : bytes) (n : Z) (p : place) (e : ient) : Prop :=
  n_num e = n /\ n_next e = None /\ n_del e = false /\ 1 <= n /\
  match p with Free => False
  | At off gen => n_env e = None /\ n_pos e = Some (AInt off) /\ 0 <= off < blen F
  | Inside env idx => 0 < env /\ n_env e = Some env /\ n_pos e = Some (ATup env idx) end.
Lemma entry_bounds F ts s e : sections_file F ts -> In s ts -> In e (entries_of s) -> exists n p, In (n, p) (fs_list s) /\ p <> Free /\ entry_in F n p e.
Proof.
  intros SF I U. apply entries_in in U as (n & p & L & N & NF & E). exists n, p. split; auto. split; auto. destruct p as [|off gen|env idx]; [destruct E| |]; subst e.
  - destruct (sf_objects _ _ SF s n off gen I L N) as [o O]. destruct (at_bounds _ _ _ _ _ O) as [A1 A2]. repeat split; auto; lia.
  - apply in_split in I as (l1 & l2 & E). destruct (sf_inside _ _ SF l1 s l2 n env idx E L) as [_ H]. destruct (H N) as (N1 & N2 & _). repeat split; auto. lia.
Qed.
Lemma entry_there s n p : In (n, p) (fs_list s) -> n <> 0 -> p <> Free -> exists e, In e (entries_of s) /\ n_num e = n /\
  match p with Free => False | At off _ => n_env e = None /\ n_pos e = Some (AInt off) | Inside env idx => n_env e = Some env /\ n_pos e = Some (ATup env idx) end.
Proof.
  intros I N NF. destruct p as [|off gen|env idx]; [congruence| |].
  - eexists. split; [apply entries_in; exists n, (At off gen); split; [auto|]; split; [auto|]; split; [discriminate|reflexivity]|]. repeat split.
  - eexists. split; [apply entries_in; exists n, (Inside env idx); split; [auto|]; split; [auto|]; split; [discriminate|reflexivity]|]. repeat split.
Qed.
Lemma part_entries F s c e : part_of F s c -> In e (tl c) -> In e (entries_of s) \/ n_num e = -1 /\ n_env e = None /\ n_next e = None /\ n_del e = false /\ exists ep, n_pos e = Some (AInt ep) /\ 0 <= ep < blen F.
Proof.
  intros (tp & h & sx & ep & -> & _ & _ & EP & _) I. cbn [close_section tl] in I. apply in_app_or in I as [I|[<-|[]]]; auto. right. split; [reflexivity|]. split; [reflexivity|]. split; [reflexivity|]. split; [reflexivity|]. exists ep. split; [reflexivity|auto].
Qed.
Lemma part_has F s c e : part_of F s c -> In e (entries_of s) -> In e (tl c).
Proof. intros (tp & h & sx & ep & -> & _) I. cbn [close_section tl]. apply in_or_app. auto. Qed.
Lemma parts_order F ts : joined ts -> Forall (section_in F) ts -> forall cs, Forall2 (part_of F) ts cs -> increasing 0 (rev cs) /\
  forall t es p s r, ts = s :: r -> In (t :: es) cs -> n_pos t = Some (AInt p) -> p < Z.of_nat (fs_pos s + length (fs_text s)).
Proof.
  induction 1 as [s P|s s' r P GE LK IH]; intros FT cs SS.
  - inversion SS as [|? c ? rc SC SR]; subst. inversion SR; subst. inversion FT as [|? ? (_ & P0 & _) _]; subst. destruct SC as (tp & h & sx & ep & -> & (H1 & H2 & H3 & H4 & H5 & H6 & H7) & TP & _). split.
    + cbn [rev app close_section increasing]. eexists _, _, _. split; [reflexivity|]. cbn. split; [exact H5|]. split; [reflexivity|]. split; [lia|auto].
    + intros t es p s0 r0 Q [E|[]] HP. injection Q as <- <-. cbn [close_section] in E. injection E as <- _. cbn in HP. rewrite H5 in HP. injection HP as <-. lia.
  - inversion SS as [|? c ? rc SC SR]; subst. inversion FT as [|? ? (_ & P0 & _) FT']; subst. destruct (IH FT' rc SR) as [I1 I2]. destruct SC as (tp & h & sx & ep & -> & (H1 & H2 & H3 & H4 & H5 & H6 & H7) & TP & _). split.
    + cbn [rev close_section]. apply (increasing_snoc tp); auto; [lia|]. intros t' es' p' I HP. apply in_rev in I. specialize (I2 _ _ _ _ _ eq_refl I HP). lia.
    + intros t es p s0 r0 Q [E|I] HP; injection Q as <- <-.
      * cbn [close_section] in E. injection E as <- _. cbn in HP. rewrite H5 in HP. injection HP as <-. lia.
      * specialize (I2 _ _ _ _ _ eq_refl I HP). lia.
Qed.

Lemma F2_rev {A C} (P : A -> C -> Prop) l m : Forall2 P l m -> Forall2 P (rev l) (rev m).
Proof. induction 1; cbn [rev]; [constructor|]. apply Forall2_app; auto. Qed.
Lemma F2_nth {A C} (P : A -> C -> Prop) l m : Forall2 P l m -> forall k, match nth_error l k, nth_error m k with Some a, Some c => P a c | None, None => True | _, _ => False end.
Proof. induction 1; intros [|k]; cbn; auto. apply IHForall2. Qed.
Lemma parts_sectioned F ts cs : sections_file F ts -> Forall2 (part_of F) ts cs -> sectioned F cs.
Proof.
  intros SF SS. pose proof (sf_sections _ _ SF) as FT. pose proof (sf_joined _ _ SF) as LK.
  (* a section and the older ones *)
  assert (OLD : forall j c, nth_error (rev cs) j = Some c -> exists newer s older, ts = newer ++ s :: older /\ part_of F s c /\
    forall s', In s' (s :: older) <-> exists i, (i <= j)%nat /\ nth_error (rev ts) i = Some s').
  { intros j c J. pose proof (F2_nth _ _ _ (F2_rev _ _ _ SS) j) as H. rewrite J in H. destruct (nth_error (rev ts) j) as [s|] eqn:E; [|destruct H]. destruct (nth_error_split _ _ E) as (l1 & l2 & ES & LL).
    exists (rev l2), s, (rev l1). split; [rewrite <- (rev_involutive ts), ES, rev_app_distr; cbn [rev]; now rewrite <- app_assoc|]. split; [auto|].
    intro s'. rewrite ES. split.
    - intros [<-|I]; [exists j; split; [lia|]; rewrite <- ES; exact E|]. apply in_rev in I. apply In_nth_error in I as [i I]. assert (i < length l1)%nat by (apply nth_error_Some; congruence). exists i. split; [lia|]. rewrite nth_error_app1 by lia. exact I.
    - intros (i & LE & I). destruct (Nat.eq_dec i j) as [->|N]; [left; rewrite <- ES in I; congruence|]. right. rewrite nth_error_app1 in I by lia. rewrite <- in_rev. eapply nth_error_In; eauto. }
  constructor.
  - apply (parts_order F ts LK FT cs SS).
  - intros c e I J. destruct (Forall2_in_r _ _ _ _ SS I) as (s & IS & SC). pose proof SC as (tp & h & sx & ep & EC & (H1 & H2 & H3 & H4 & H5 & H6 & H7) & TP & _ & _).
    pose proof FT as FT'. rewrite Forall_forall in FT'. pose proof (file_nonzero _ _ SF) as NZ. rewrite Forall_forall in NZ. destruct (section_found F s (FT' _ IS) (NZ _ IS)) as [TL _].
    assert (J' : e = hd e c \/ In e (tl c)) by (rewrite EC in *; destruct J as [<-|J]; auto). destruct J' as [->|J'].
    + rewrite EC. cbn [close_section hd]. cbn. split; [exact H3|]. split; [exact H4|]. left. exists tp. split; [split; [exact H2|exact H5]|unfold blen; lia].
    + destruct (part_entries _ _ _ _ SC J') as [U|(_ & Q1 & Q2 & Q3 & p & Q4 & Q5)].
      * destruct (entry_bounds _ _ _ _ SF IS U) as (n & p & _ & _ & (E1 & E2 & E3 & E4 & E5)). split; auto. split; auto. destruct p as [|off gen|env idx]; [destruct E5| |].
        -- destruct E5 as (E5 & E6 & E7). left. exists off. split; [split; auto|auto].
        -- destruct E5 as (E5 & E6 & E7). right. exists env, idx. auto.
      * split; auto. split; auto. left. exists p. split; [split; auto|auto].
  - intros c I. destruct (Forall2_in_r _ _ _ _ SS I) as (s & IS & tp & h & sx & ep & -> & (H1 & H2 & _) & _). eexists _, _. split; [reflexivity|]. split; [exact H1|exact H2].
  - intros c e I J. destruct (Forall2_in_r _ _ _ _ SS I) as (s & IS & SC). destruct (part_entries _ _ _ _ SC J) as [U|(Q1 & Q2 & _)]; [right|left; auto].
    destruct (entry_bounds _ _ _ _ SF IS U) as (n & p & L & _ & (E1 & E2 & E3 & E4 & E5)). split; [lia|]. destruct p as [|off gen|env idx]; [destruct E5| |].
    + exists c, e. split; auto. split; auto. split; [apply E5|lia].
    + destruct (sf_highest _ _ SF s n env idx IS L) as (s' & m & off & gen & IS' & L' & LE & M0). destruct (entry_there s' m (At off gen) L' M0 ltac:(discriminate)) as (e' & U' & N' & V' & _).
      apply In_nth_error in IS' as [k K]. pose proof (F2_nth _ _ _ SS k) as H. rewrite K in H. destruct (nth_error cs k) as [c'|] eqn:EK; [|destruct H]. exists c', e'. split; [eapply nth_error_In; eauto|]. split; [eapply part_has; eauto|]. split; [auto|lia].
  - intros c I. destruct (Forall2_in_r _ _ _ _ SS I) as (s & IS & tp & h & sx & ep & -> & _). cbn [close_section tl]. eexists. split; [apply in_or_app; right; left; reflexivity|reflexivity].
  - intros j c e env J I EV. destruct (OLD j c J) as (newer & s & older & ET & SC & OS). destruct (part_entries _ _ _ _ SC I) as [U|(_ & Q & _)]; [|congruence].
    assert (IS : In s ts) by (rewrite ET; apply in_or_app; right; left; auto). destruct (entry_bounds _ _ _ _ SF IS U) as (n & p & L & _ & (E1 & E2 & E3 & E4 & E5)). destruct p as [|off gen|env' idx]; [destruct E5|destruct E5; congruence|].
    destruct E5 as (E5 & E6 & E7). assert (env' = env) by congruence. subst env'. split; auto. destruct (sf_inside _ _ SF newer s older n env idx ET L) as [_ H]. destruct (H ltac:(lia)) as (_ & _ & (s' & off & gen & IS' & L') & _).
    apply OS in IS' as (i & LE & I'). destruct (entry_there s' env (At off gen) L' ltac:(lia) ltac:(discriminate)) as (e' & U' & N' & V' & _).
    pose proof (F2_nth _ _ _ (F2_rev _ _ _ SS) i) as HP. rewrite I' in HP. destruct (nth_error (rev cs) i) as [c'|] eqn:EK; [|destruct HP]. exists i, c', e'. split; auto. split; auto. split; [eapply part_has; eauto|auto].
  - intros j c e env i c' e' J I EV LE I2 J2 NE. destruct (OLD j c J) as (newer & s & older & ET & SC & OS). destruct (part_entries _ _ _ _ SC I) as [U|(_ & Q & _)]; [|congruence].
    assert (IS : In s ts) by (rewrite ET; apply in_or_app; right; left; auto). destruct (entry_bounds _ _ _ _ SF IS U) as (n & p & L & _ & (E1 & E2 & E3 & E4 & E5)). destruct p as [|off gen|env' idx]; [destruct E5|destruct E5; congruence|].
    destruct E5 as (E5 & E6 & E7). assert (env' = env) by congruence. subst env'. destruct (sf_inside _ _ SF newer s older n env idx ET L) as [_ H]. destruct (H ltac:(lia)) as (_ & _ & _ & NO).
    pose proof (F2_nth _ _ _ (F2_rev _ _ _ SS) i) as HP. rewrite I2 in HP. destruct (nth_error (rev ts) i) as [s'|] eqn:EK; [|destruct HP]. assert (IS2 : In s' (s :: older)) by (apply OS; eauto).
    destruct (part_entries _ _ _ _ HP J2) as [U2|(Q & _)]; [|lia]. assert (IS' : In s' ts) by (rewrite ET; apply in_or_app; right; auto).
    destruct (entry_bounds _ _ _ _ SF IS' U2) as (n2 & p2 & L2 & _ & (F1 & F2 & F3 & F4 & F5)). destruct p2 as [|off gen|env2 idx2]; [destruct F5|exact (proj1 F5)|]. exfalso. rewrite <- F1, NE in L2. exact (NO s' env2 idx2 IS2 L2).
Qed.

(* ---------- the file is read as its sections say ---------- *)
Lemma file_parts F s r f : sections_file F (s :: r) -> (length r <= f)%nat -> exists c cs b l sx tp h,
  xref_chrono f (PvSingle F) = Ok (c :: cs) /\ Forall2 (part_of F) (s :: r) (c :: cs) /\ F = b ++ W_EOF ++ l /\ Forall eol l /\
  c = close_section (h :: entries_of s) false sx (blen b) /\ head_of s tp h /\ trailer_read F (Z.to_nat tp) = Ok (rvd (fs_trailer s)) /\
  exists cs', Forall2 (part_of F) (s :: r) cs' /\ forall X, xref_chain (S f) (PvSingle (F ++ X)) (F ++ X) (Z.of_nat (fs_pos s)) 0 = Ok cs'.
Proof.
  intros SF LF. destruct (sf_end _ _ SF) as (s0 & r0 & Q & FE). injection Q as <- <-. destruct (last_parts _ _ FE) as (b & e & l & E2 & L & LBE & L100 & RX & RE & LAST & NT).
  pose proof (sf_sections _ _ SF) as FT. pose proof (sf_joined _ _ SF) as LK. pose proof (sf_trailers _ _ SF) as FP. pose proof (file_nonzero _ _ SF) as FN.
  assert (PB : (fs_pos s <= length b)%nat).
  { destruct (Forall_inv FT) as (_ & _ & pre & g & post & EF & LP & _). specialize (LAST (pre ++ fs_text s ++ g) post). rewrite !app_length in LAST. rewrite <- LP.
    enough (length pre + (length (fs_text s) + length g) <= length b)%nat by lia. apply LAST. rewrite EF at 1. rewrite <- !app_assoc. reflexivity. }
  assert (EA : Forall (ended F) (s :: r)).
  { assert (G : forall ts, joined ts -> forall a q, ts = a :: q -> (fs_pos a <= length b)%nat -> Forall (ended F) ts).
    { induction 1 as [u U|u u' q U GE LK' IH]; intros a q' Q PA; injection Q as <- <-; constructor; auto.
      - exists e, l. split; [auto|lia]. - exists e, l. split; [auto|lia]. - apply (IH u' q eq_refl). lia. }
    exact (G _ LK s r eq_refl PB). }
  destruct (parts_found F (s :: r) LK FT FN FP EA) as (cs' & SS' & XC).
  pose proof (Forall_inv FT) as TI. pose proof (Forall_inv_tail FT) as FT'. pose proof (Forall_inv FP) as PL. pose proof (Forall_inv_tail FP) as FP'. pose proof (Forall_inv_tail EA) as EA'. pose proof (Forall_inv FN) as NZ. pose proof (Forall_inv_tail FN) as FN'.
  destruct (section_found F s TI NZ) as (TL & tp & h & HH & TP & RS). specialize (RS []) as (R1 & R2). rewrite app_nil_r in R1, R2.
  assert (RC : exists cs, Forall2 (part_of F) r cs /\ exists q, int_entry K_Prev (rvd (fs_trailer s)) = Ok q /\ xref_chain f (PvSingle F) F q 0 = Ok cs).
  { clear E2 EA. inversion LK as [? P|? s1 r1 P GE LK']; subst.
    - exists []. split; [constructor|]. exists 0. destruct (back_of s _ PL P) as (_ & _ & Q). split; auto. destruct f; reflexivity.
    - destruct (parts_found F (s1 :: r1) LK' FT' FN' FP' EA') as (cs & SS & XC'). exists cs. split; auto. exists (Z.of_nat (fs_pos s1)). destruct (back_of s _ PL P) as (_ & _ & Q). split; auto.
      specialize (XC' [] f LF). now rewrite app_nil_r in XC'. }
  destruct RC as (cs & SS & q & Q & XQ). destruct (back_of s _ PL eq_refl) as (A1 & A2 & _).
  exists (close_section (h :: entries_of s) false (Z.of_nat (length b)) (blen e)), cs, e, l, (Z.of_nat (length b)), tp, h.
  split; [|split; [|split; [auto|split; [auto|split; [reflexivity|split; [auto|split; [auto|]]]]]]].
  - unfold xref_chrono. destruct (single_read F (-100) (-1)) as (n & R & _); [intros ->; cbn in L100; lia|unfold blen; lia|lia|].
    cbn [Z.ltb Z.compare] in R. rewrite R. cbn [bind]. rewrite RX, RE. cbn [znat].
    replace (Z.to_nat (Z.of_nat (length b) + 9)) with (length b + 9)%nat by lia.
    destruct (next_token F (length b + 9)) as [[i j] k]. rewrite NT. cbn [of_opt bind]. rewrite R1 by lia. cbn [bind]. rewrite A1, Q, A2. cbn [bind]. rewrite XQ. reflexivity.
  - constructor; auto. exists tp, h, (Z.of_nat (length b)), (blen e). split; [reflexivity|]. split; [auto|]. split; [auto|]. split; [|auto]. rewrite E2. rewrite !blen_app. unfold blen. change (length W_EOF) with 5%nat. lia.
  - exists cs'. split; auto. intro X. apply XC. cbn [length]. lia.
Qed.

Lemma entries_filter s : forall F ts, sections_file F ts -> In s ts -> filter (fun e => 0 <? n_num e) (entries_of s) = entries_of s.
Proof.
  intros F ts SF I. assert (G : forall l, (forall e, In e l -> 0 < n_num e) -> filter (fun e => 0 <? n_num e) l = l).
  { induction l as [|a l IH]; intro H; cbn [filter]; auto. replace (0 <? n_num a) with true by (specialize (H a (or_introl eq_refl)); lia). f_equal. apply IH. intros e J. apply H. right. auto. }
  apply G. intros e U. destruct (entry_bounds _ _ _ _ SF I U) as (n & p & _ & _ & (E1 & _ & _ & E4 & _)). lia.
Qed.
Lemma parts_alike F ts cs cs' : Forall2 (part_of F) ts cs -> Forall2 (part_of F) ts cs' -> Forall2 alike cs cs'.
Proof.
  intro SS. revert cs'. induction SS as [|s c ts cs SC SS IH]; intros cs' SS'; inversion SS' as [|? c' ? cs2 SC' SS2]; subst; constructor; auto.
  destruct SC as (tp & h & sx & ep & -> & H & _). destruct SC' as (tp' & h' & sx' & ep' & -> & H' & _). split.
  - cbn [close_section tl]. rewrite !filter_app. reflexivity.
  - eexists _, _, _, _. split; [reflexivity|]. split; [reflexivity|]. destruct H as (_ & _ & _ & _ & _ & H & _). destruct H' as (_ & _ & _ & _ & _ & H' & _). cbn. congruence.
Qed.
Lemma parts_oldest F ts cs : Forall2 (part_of F) ts cs -> oldest_xsn cs = oldest_num ts.
Proof.
  intro SS. unfold oldest_xsn, oldest_num. destruct (F2_rev _ _ _ SS) as [|s c l m (tp & h & sx & ep & -> & (_ & _ & _ & _ & _ & H & _) & _) _]; [reflexivity|]. cbn [close_section]. exact H.
Qed.

Lemma file_stays F s r f : sections_file F (s :: r) -> (length r <= f)%nat -> exists cs cs',
  Forall2 (part_of F) (s :: r) cs /\ lasting f F cs cs' (Z.of_nat (fs_pos s)) (rvd (fs_trailer s)).
Proof.
  intros SF LF. destruct (file_parts F s r f SF LF) as (c & cs & b & l & sx & tp & h & RD & SS & EF & EL & EC & HH & TR & cs' & SS' & XC). pose proof HH as (H1 & H2 & H3 & H4 & H5 & H6 & H7).
  exists (c :: cs), cs'. split; [exact SS|]. constructor.
  - constructor.
    + exact RD.
    + exact (parts_sectioned _ _ _ SF SS).
    + destruct (Forall_inv (sf_sections _ _ SF)) as (_ & P0 & _). split; [lia|]. rewrite EC. cbn [close_section]. eexists _, _, _, tp. split; [reflexivity|]. split; [exact H7|]. split; [exact H5|]. exact TR.
    + destruct (Forall_inv (sf_trailers _ _ SF)) as (X & W). split; [apply wfv_rvd; auto|]. rewrite dget_rvd by (apply wfv_nodup; auto). change (B "/XRefStm") with K_XRefStm in X. rewrite X. reflexivity.
    + exists b, l, c, cs. split; auto. split; auto. split; auto. intros e I NE. rewrite EC in I. cbn [close_section tl] in I. apply in_app_or in I as [I|[<-|[]]]; [|reflexivity].
      destruct (entry_bounds _ _ _ _ SF (or_introl eq_refl) I) as (n & p & _ & _ & (E1 & _ & _ & E4 & _)). lia.
    + destruct (sf_news _ _ SF) as (s0 & r0 & n & p & Q & LS & NF & N0 & NS & NEW). injection Q as <- <-. destruct (entry_there s n p LS N0 NF) as (e & U & NE & PE).
      destruct (entry_bounds _ _ _ _ SF (or_introl eq_refl) U) as (n' & p' & _ & _ & (E1 & _ & _ & E4 & _)).
      rewrite EC. cbn [close_section]. eexists _, _, cs, e. split; [reflexivity|]. split; [apply in_or_app; left; exact U|]. split; [lia|]. split; [cbn; rewrite H6, NE; exact NS|].
      inversion SS as [|? ? ? ? _ SR]; subst. intros s' e' I J NN. destruct (Forall2_in_r _ _ _ _ SR I) as (t & IT & SC). destruct (part_entries _ _ _ _ SC J) as [U2|(Q & _)]; [|lia].
      destruct (entry_bounds _ _ _ _ SF (or_intror IT) U2) as (n2 & p2 & L2 & NF2 & (F1 & _ & _ & F4 & F5)). rewrite <- F1, NN in L2. specialize (NEW t p2 IT L2 NF2). intro Q. apply NEW.
      destruct p as [|off gen|env idx]; [congruence| |]; destruct p2 as [|off2 gen2|env2 idx2]; try (destruct F5; fail); cbn [place_key];
        destruct PE as (PE1 & PE2); rewrite PE2 in Q; [destruct F5 as (_ & F5 & _)|destruct F5 as (_ & _ & F5)|destruct F5 as (_ & F5 & _)|destruct F5 as (_ & _ & F5)]; rewrite F5 in Q; congruence.
  - split; [eapply parts_alike; eauto|]. exact (parts_sectioned _ _ _ SF SS').
  - exact XC.
  - intros c0 e p X I J N DA. destruct (Forall2_in_r _ _ _ _ SS I) as (t & IT & SC). destruct (part_entries _ _ _ _ SC J) as [U|(Q & _)]; [|lia].
    destruct (entry_bounds _ _ _ _ SF IT U) as (n & q & L & _ & (E1 & _ & _ & E4 & E5)). destruct DA as [D1 D2]. destruct q as [|off gen|env idx]; [destruct E5| |destruct E5 as (_ & E5 & _); congruence].
    destruct E5 as (_ & E5 & _). rewrite D2 in E5. injection E5 as ->. destruct (sf_objects _ _ SF t n off gen IT L ltac:(lia)) as [o O]. rewrite (at_found _ _ _ _ _ O X). pose proof (at_found _ _ _ _ _ O []) as R. rewrite app_nil_r in R. now rewrite R.
Qed.

(* ---------- the current place of an object ---------- *)
Definition placed_at (p : place) (e : ient) : Prop :=
  match p with Free => False | At off gen => n_env e = None /\ n_pos e = Some (AInt off) | Inside env idx => n_env e = Some env /\ n_pos e = Some (ATup env idx) end.
Definition key_pos (p : place) : apos := match p with Free => AInt 0 | At off _ => AInt off | Inside env idx => ATup env idx end.
Lemma place_pos F n p e : entry_in F n p e -> n_pos e = Some (key_pos p).
Proof. intros (_ & _ & _ & _ & E). destruct p; [destruct E|apply E|apply E]. Qed.
Lemma current_history F ts0 : sections_file F ts0 -> forall ts n p, current ts n p -> (forall s, In s ts -> In s ts0) -> 0 < n -> forall cs, Forall2 (part_of F) ts cs ->
  exists v e h, history n 0 [] (rev cs) = (v, e) :: h /\ placed_at p e.
Proof.
  intros SF ts n p NW. induction NW as [s r n p L NF|s r n p NO NW IH]; intros SUB N0 cs SS; inversion SS as [|? c ? cs2 (tp & hh & sx & ep & -> & _) SR]; subst.
  - rewrite history_section by auto. assert (FA : Forall (fun e => n_pos e = Some (key_pos p)) (filter (fun e => n_num e =? n) (entries_of s))).
    { apply Forall_forall. intros e I. apply filter_In in I as [I NE]. destruct (entry_bounds _ _ _ _ SF (SUB s (or_introl eq_refl)) I) as (n2 & p2 & L2 & NF2 & EI). pose proof EI as (E1 & _). replace n2 with n in L2 by lia. clear E1.
      rewrite (sf_once _ _ SF s n p p2 (SUB s (or_introl eq_refl)) L L2 NF NF2). eapply place_pos; eauto. }
    assert (NE : filter (fun e => n_num e =? n) (entries_of s) <> []).
    { destruct (entry_there s n p L ltac:(lia) NF) as (e & U & NE & _). intro Q. assert (I : In e (filter (fun e => n_num e =? n) (entries_of s))) by (apply filter_In; split; [auto|lia]). rewrite Q in I. destruct I. }
    destruct (top_pos (Z.of_nat (length cs2)) (key_pos p) _ (history n 0 [] (rev cs2)) (or_introl NE) FA) as (v & e & h & E & P). exists v, e, h. split; auto.
    assert (I : In (v, e) (history n 0 [] (rev (close_section (hh :: entries_of s) false sx ep :: cs2)))) by (rewrite history_section by auto; rewrite E; left; auto).
    apply history_in in I as [[]|(j & c & J & _ & I & NN)]. apply nth_error_In, in_rev in J. destruct (Forall2_in_r _ _ _ _ SS J) as (t & IT & SC).
    destruct (part_entries _ _ _ _ SC I) as [U|(Q & _)]; [|lia]. destruct (entry_bounds _ _ _ _ SF (SUB t IT) U) as (n2 & p2 & _ & NF2 & EI). pose proof (place_pos _ _ _ _ EI) as PP. rewrite P in PP. injection PP as PP.
    destruct EI as (_ & _ & _ & _ & EI). destruct p, p2; try congruence; cbn [key_pos placed_at] in *; try discriminate; split; auto; try apply EI; destruct EI as (_ & EI & _); congruence.
  - rewrite history_section by auto. replace (filter (fun e => n_num e =? n) (entries_of s)) with (@nil ient).
    2:{ symmetry. destruct (filter _ (entries_of s)) as [|e l] eqn:Q; auto. exfalso. assert (I : In e (filter (fun e => n_num e =? n) (entries_of s))) by (rewrite Q; left; auto).
        apply filter_In in I as [I NE]. apply entries_in in I as (n2 & p2 & L2 & N2 & NF2 & E2). assert (n_num e = n2) by (destruct p2; [destruct E2| |]; subst e; reflexivity). replace n2 with n in L2 by lia. exact (NF2 (NO p2 L2)). }
    cbn [fold_left]. apply IH; auto. intros t I. apply SUB. right. auto.
Qed.
Lemma free_history F ts cs n : Forall2 (part_of F) ts cs -> 0 < n -> (forall s p, In s ts -> In (n, p) (fs_list s) -> p = Free) -> history n 0 [] (rev cs) = [].
Proof.
  intros SS N H. apply history_none. intros c e I J Q. apply in_rev in I. destruct (Forall2_in_r _ _ _ _ SS I) as (s & IS & SC). destruct (part_entries _ _ _ _ SC J) as [U|(Q2 & _)]; [|lia].
  apply entries_in in U as (n2 & p & L & N2 & NF & E). assert (n_num e = n2) by (destruct p; [destruct E| |]; subst e; reflexivity). apply NF, (H s p IS). congruence.
Qed.
Lemma current_or_free ts n : (exists p, current ts n p) \/ forall s p, In s ts -> In (n, p) (fs_list s) -> p = Free.
Proof.
  induction ts as [|s r IH]; [right; intros s p []|].
  assert (D : (exists p, In (n, p) (fs_list s) /\ p <> Free) \/ forall p, In (n, p) (fs_list s) -> p = Free).
  { induction (fs_list s) as [|[m q] l IHl]; [right; intros p []|]. destruct IHl as [(p & I & NF)|H]; [left; exists p; split; [right; auto|auto]|].
    destruct (Z.eq_dec m n) as [->|N]; [|right; intros p [E|I]; [congruence|auto]]. destruct q as [|off gen|env idx]; [right; intros p [E|I]; [congruence|auto]| |]; left; eexists; (split; [left; reflexivity|discriminate]). }
  destruct D as [(p & I & NF)|H]; [left; exists p; constructor; auto|]. destruct IH as [(p & C)|H2]; [left; exists p; constructor 2; auto|]. right. intros t p [<-|I] J; eauto.
Qed.

(* the cell of an object in the index *)
Lemma cell_current F ts cs d x t nb q e0 : sections_file F ts -> Forall2 (part_of F) ts cs -> sectioned F cs -> loaded d F cs x t nb q e0 -> forall n p, 0 < n -> current ts n p ->
  exists e, cell q n (SDict e) /\ n_del e = false /\ match p with Free => False | At off _ => n_env e = None /\ n_pos e = Some (AInt off) /\ exists nx, n_next e = Some nx /\ off < nx | Inside env _ => n_env e = Some env end.
Proof.
  intros SF SS SC L n p N C. destruct (current_history F ts SF ts n p C (fun _ H => H) N cs SS) as (v & e & h & HE & PA). destruct (loaded_calm _ _ _ _ _ _ _ _ L SC) as (CQ & CK).
  assert (NN : n <= nb).
  { assert (I : In (v, e) (history n 0 [] (rev cs))) by (rewrite HE; left; auto). apply history_in in I as [[]|(j & c & J & _ & I & Q)]. apply nth_error_In, in_rev in J. rewrite <- Q. exact (proj1 (ld_nb _ _ _ _ _ _ _ _ L) c e J I). }
  destruct (ld_cells _ _ _ _ _ _ _ _ L n ltac:(lia)) as (c & CC & M). rewrite HE in M. destruct M as (e' & -> & K). pose proof K as (_ & _ & K3 & K4 & _ & _ & _ & K8).
  destruct (CQ n _ N CC) as [Q|(e2 & Q & DEL & _)]; [discriminate|]. injection Q as <-. exists e'. split; auto. split; auto. destruct p as [|off gen|env idx]; [destruct PA| |].
  - destruct PA as [P1 P2]. destruct (K8 off (conj P1 P2)) as (P & nx & NX & LT). split; [congruence|]. split; auto. eauto.
  - destruct PA as [P1 _]. congruence.
Qed.
Lemma current_cell F ts cs d x t nb q e0 : sections_file F ts -> Forall2 (part_of F) ts cs -> sectioned F cs -> loaded d F cs x t nb q e0 -> forall n e c, 0 < n -> cell q n (SDict e) -> n_env e = Some c -> exists i, current ts n (Inside c i).
Proof.
  intros SF SS SC L n e c N CE EV. destruct (loaded_calm _ _ _ _ _ _ _ _ L SC) as (CQ & CK). destruct (CK n e N CE) as (v & s & e1 & h & _ & _ & _ & HE & K). pose proof K as (_ & _ & K3 & _). destruct (current_or_free ts n) as [(p & C)|H].
  - destruct (current_history F ts SF ts n p C (fun _ H => H) N cs SS) as (v' & e' & h' & HE' & PA). rewrite HE in HE'. injection HE' as <- <- <-. destruct p as [|off gen|env idx]; [destruct PA|destruct PA; congruence|]. exists idx. destruct PA as [PA _]. replace c with env by congruence. exact C.
  - rewrite (free_history F ts cs n SS N H) in HE. discriminate.
Qed.
(* the members found in an object stream *)
Lemma member_found l r n o : Forall2 (fun p e => e_num e = PInt (fst p) /\ e_obj e = rv (snd p)) l r -> NoDup (map fst l) -> In (n, o) l -> member n r = Some (rv o).
Proof.
  intro H. assert (NO : forall l r n, Forall2 (fun p e => e_num e = PInt (fst p) /\ e_obj e = rv (snd p)) l r -> ~ In n (map fst l) -> member n r = None).
  { clear. intros l r n H. induction H as [|p e l r (E1 & E2) H IH]; intro NI; cbn [member]; auto. cbn [map In] in NI. rewrite IH by tauto. rewrite E1. replace (fst p =? n) with false by (symmetry; apply Z.eqb_neq; tauto). reflexivity. }
  induction H as [|p e l r (E1 & E2) H IH]; intros ND I; [destruct I|]. cbn [map] in ND. inversion ND as [|? ? NI ND']; subst. cbn [member]. destruct I as [->|I].
  - cbn [fst snd] in *. rewrite (NO l r n H NI), E1, Z.eqb_refl, E2. reflexivity.
  - rewrite IH by auto. reflexivity.
Qed.
Lemma objstm_found F env off gen l : objstm_at F env off gen l -> exists sd st en r, 0 <= off < blen F /\ object_read F (Z.to_nat off) = Ok (PStream sd st en) /\ parse_object_stream sd st env = Ok r /\
  Forall2 (fun p e => e_num e = PInt (fst p) /\ e_obj e = rv (snd p)) l r /\ NoDup (map fst l) /\ Forall (fun p => peq (snd p) (rv (snd p))) l.
Proof.
  intros (d & data & enc & first & OA & OT & NL & ND & DF & z & DN). pose proof (at_found _ _ _ _ _ OA []) as R. rewrite app_nil_r in R. cbn [rd] in R.
  assert (NDD : NoDup (map fst d)) by (destruct OA as (pre & txt & post & _ & _ & OX); exact (proj1 (stream_tokens _ _ _ _ _ _ OX))).
  destruct (objects_read (rvd d) l first data env NL OT) as (r & PR & F2).
  { rewrite dget_rvd by auto. change K_First with (B "/First"). rewrite DF. reflexivity. }
  { exists z. rewrite dget_rvd by auto. change K_N with (B "/N"). rewrite DN. reflexivity. }
  exists (rvd d), (Some data), enc, r. split; [apply (at_bounds _ _ _ _ _ OA)|]. split; [exact R|]. split; [exact PR|]. split; [exact F2|]. split; [exact ND|]. eapply objects_peq; eauto.
Qed.
Lemma parts_coherent F ts cs d x t nb q e0 : sections_file F ts -> Forall2 (part_of F) ts cs -> sectioned F cs -> loaded d F cs x t nb q e0 -> coherent d.
Proof.
  intros SF SS SC L row p [l0 OR] PV n e c CE DE EV. destruct (ld_index _ _ _ _ _ _ _ _ L) as (l & re & E1 & LL & E2 & _). rewrite E1 in OR. change [q; SDict re :: skipn 1 q] with ([q] ++ [SDict re :: skipn 1 q]) in OR. rewrite app_assoc in OR. apply app_inj_tail in OR as [_ <-].
  destruct PV as (l1 & y & DY & PY). destruct (ld_data _ _ _ _ _ _ _ _ L) as (data & DD & _). rewrite DD in DY. change [mk_datum (Some (blen F)) None (Some (PvSingle F)); mk_datum None None (Some (PvSingle F))] with ([mk_datum (Some (blen F)) None (Some (PvSingle F))] ++ [mk_datum None None (Some (PvSingle F))]) in DY. rewrite app_assoc in DY. apply app_inj_tail in DY as [_ <-]. injection PY as <-.
  destruct (ld_len _ _ _ _ _ _ _ _ L) as (NB & LQ & LC). pose proof (cell_range _ _ _ CE) as RG.
  assert (CELL : forall m z, 0 < m -> cell q m z -> cell (SDict re :: skipn 1 q) m z) by (intros m z M C; refine (proj2 (cell_cons_skip _ q m _ _ _) C); lia).
  assert (CACHE : forall m z, cell q m z -> 0 < m -> cell (d_cache d) m PNone).
  { intros m z C M. pose proof (cell_range _ _ _ C) as R. assert (X : exists v, cell (d_cache d) m v). { destruct (nth_error (d_cache d) (Z.to_nat m)) as [v|] eqn:Q; [exists v; split; [lia|exact Q]|]. apply nth_error_None in Q. lia. } destruct X as [v V]. rewrite (ld_cache _ _ _ _ _ _ _ _ L m v M V) in V. exact V. }
  destruct (Z.eq_dec n 0) as [->|N]; [destruct CE as [_ CE]; cbn in CE; injection CE as <-; congruence|].
  assert (CQ : cell q n (SDict e)) by (refine (proj1 (cell_cons_skip _ q n _ _ _) CE); lia).
  destruct (current_cell _ _ _ _ _ _ _ _ _ SF SS SC L n e c ltac:(lia) CQ EV) as (i & CU). destruct (sf_streams _ _ SF n c i ltac:(lia) CU) as (off & gen & ls & CC & OS & _ & MEM).
  assert (C0 : 0 < c).
  { assert (G : forall ts', (forall s, In s ts' -> In s ts) -> current ts' n (Inside c i) -> 0 < c). { intros ts' SUB C2. remember (Inside c i) as pl. remember n as n'. induction C2 as [s r n1 p1 I1 NF|s r n1 p1 NO C2 IH]; subst; [|apply IH; auto; intros; apply SUB; right; auto]. assert (IS := SUB s (or_introl eq_refl)). apply in_split in IS as (a & b & EQ). apply (proj2 (sf_inside _ _ SF a s b n c i EQ I1)). lia. }
    exact (G ts (fun _ H => H) CU). }
  destruct (cell_current _ _ _ _ _ _ _ _ _ SF SS SC L c (At off gen) C0 CC) as (ce & CCE & DCE & ECE & PCE & nx & NX & LT). destruct (objstm_found _ _ _ _ _ OS) as (sd & st & en & r & OB & RD & PR & F2 & ND & PQ).
  exists ce, sd, st, en, r. split; auto. split; [auto|]. split; auto. split; auto. split; [rewrite (parse_single F ce off nx PCE NX OB LT); exact RD|]. split; auto. split; [left; eauto|].
  apply Forall_forall. intros em IE. destruct (Forall2_in_r _ _ _ _ F2 IE) as ([m o] & IM & EN & EO). cbn [fst snd] in *. destruct (MEM m ltac:(apply (in_map fst) in IM; exact IM)) as (M0 & j & CM).
  destruct (cell_current _ _ _ _ _ _ _ _ _ SF SS SC L m (Inside c j) M0 CM) as (me & CME & DME & EME). exists m, me, PNone. split; auto. split; auto. split; auto. split; auto. split; auto. split; [eauto|]. left. auto.
Qed.

Lemma oldest_positive F ts : sections_file F ts -> oldest_num ts <> Some (-1).
Proof.
  intros SF Q. unfold oldest_num in Q. destruct (rev ts) as [|s r] eqn:E; [discriminate|]. assert (IS : In s ts) by (apply in_rev; rewrite E; left; auto). pose proof (sf_sections _ _ SF) as FT. rewrite Forall_forall in FT. destruct (FT s IS) as (ST & _).
  inversion ST as [|pos nums rows k g d data enc txt OT XT EQ]; subst s; cbn [fs_num] in Q; [discriminate|]. injection Q as ->. destruct (stream_tokens _ _ _ _ _ _ OT) as (_ & K & _). lia.
Qed.

Theorem sections_load F s r f : sections_file F (s :: r) -> (length r <= f)%nat -> exists d, loads f F = Ok d /\ coherent d /\
  (forall n off gen o, 0 < n -> current (s :: r) n (At off gen) -> object_at F n off gen o -> exists v, value d n = Ok v /\ peq o v) /\
  (forall n env idx off gen l o, 0 < n -> current (s :: r) n (Inside env idx) -> current (s :: r) env (At off gen) -> objstm_at F env off gen l -> In (n, o) l -> exists v, value d n = Ok v /\ peq o v) /\
  (forall n v, 0 < n -> (forall t p, In t (s :: r) -> In (n, p) (fs_list t) -> p = Free) -> value d n = Ok v -> v = PNone) /\
  exists t, value d 0 = Ok (PDict t) /\ forall k, k <> B "/Size" -> k <> B "/Prev" -> k <> B "/DecodeParms" ->
    match dget k (fs_trailer s) with None => dget k t = None | Some v => exists w, dget k t = Some w /\ peq v w end.
Proof.
  intros SF LF. destruct (file_stays F s r f SF LF) as (cs & cs' & SS & LA). pose proof (la_readable _ _ _ _ _ _ LA) as RB. pose proof (rb_secs _ _ _ _ _ RB) as SC. pose proof (parts_oldest _ _ _ SS) as OX.
  destruct (load_any f F cs _ _ RB ltac:(rewrite OX; eapply oldest_positive; eauto)) as (d & nb & q & e0 & LD & L). destruct (loaded_calm _ _ _ _ _ _ _ _ L SC) as (CQ & CK).
  pose proof (parts_coherent _ _ _ _ _ _ _ _ _ SF SS SC L) as CO. exists d. split; auto. split; auto.
  destruct (loaded_edition _ _ _ _ _ _ _ _ L SC CO) as (l & re & data & E & _ & _ & RDEL & _ & _ & dx & ED & _). rewrite ED in E. pose proof (edition_provider _ _ _ _ _ _ _ _ _ _ E) as PV.
  destruct (ld_len _ _ _ _ _ _ _ _ L) as (NB & LQ & LC).
  assert (AT : forall n off gen o, 0 < n -> current (s :: r) n (At off gen) -> object_at F n off gen o -> exists e, cell q n (SDict e) /\ n_env e = None /\ n_del e = false /\ parse_at (PvSingle F) e = Ok (rd o) /\ peq o (rd o)).
  { intros n off gen o N NW OI. destruct (cell_current _ _ _ _ _ _ _ _ _ SF SS SC L n _ N NW) as (e & CE & DE & EE & PE & nx & NX & LT). exists e. split; auto. split; auto. split; auto.
    destruct (at_bounds _ _ _ _ _ OI) as [_ OB]. rewrite (parse_single F e off nx PE NX OB LT). pose proof (at_found _ _ _ _ _ OI []) as R. rewrite app_nil_r in R. split; auto. destruct OI as (pre & txt & post & _ & _ & OT). exact (proj1 (stored_rd _ _ _ _ OT)). }
  split; [|split; [|split]].
  - intros n off gen o N NW OI. destruct (AT n off gen o N NW OI) as (e & CE & EE & DE & PE & PQ). rewrite (value_old _ _ _ _ _ _ _ _ _ n _ E CQ PV N ltac:(refine (proj2 (cell_cons_skip _ q n _ _ _) CE); lia) CE).
    unfold stored, disk. rewrite (proj2 (pyget_cell q n _ ltac:(lia)) CE). cbn [bind deleted_in]. replace (n =? 0) with false by lia. rewrite EE, PE. eauto.
  - intros n env idx off gen ls o N NW NV OS IO.
    destruct (cell_current _ _ _ _ _ _ _ _ _ SF SS SC L n _ N NW) as (e & CE & DE & EE). assert (V0 : 0 < env).
    { destruct (CQ n _ N CE) as [Q|(e2 & Q & _ & X)]; [discriminate|]. injection Q as <-. destruct (CO _ _ (edition_open _ _ _ _ _ _ _ _ _ E) PV n e env ltac:(refine (proj2 (cell_cons_skip _ q n _ _ _) CE); lia) DE EE) as (? & ? & ? & ? & ? & V0 & _). exact V0. }
    destruct (cell_current _ _ _ _ _ _ _ _ _ SF SS SC L env _ V0 NV) as (ce & CCE & DCE & ECE & PCE & nx & NX & LT). destruct (objstm_found _ _ _ _ _ OS) as (sd & st & en & rr & OB & RD & PR & F2 & ND & PQ).
    exists (rv o). rewrite (value_old _ _ _ _ _ _ _ _ _ n _ E CQ PV N ltac:(refine (proj2 (cell_cons_skip _ q n _ _ _) CE); lia) CE).
    unfold stored, disk. rewrite (proj2 (pyget_cell q n _ ltac:(lia)) CE). cbn [bind deleted_in]. replace (n =? 0) with false by lia. rewrite EE, (proj2 (pyget_cell q env _ ltac:(lia)) CCE). cbn [bind as_dict]. rewrite (parse_single F ce off nx PCE NX OB LT), RD. cbn [bind]. rewrite PR. cbn [bind]. rewrite (member_found _ _ _ _ F2 ND IO). split; [reflexivity|]. rewrite Forall_forall in PQ. exact (PQ _ IO).
  - intros n v N H V. pose proof (free_history F _ cs n SS N H) as HE. destruct (Z.le_gt_cases n nb) as [LE|GT].
    + destruct (ld_cells _ _ _ _ _ _ _ _ L n ltac:(lia)) as (c & CC & M). rewrite HE in M. cbn in M. subst c. rewrite (value_old _ _ _ _ _ _ _ _ _ n _ E CQ PV N ltac:(refine (proj2 (cell_cons_skip _ q n _ _ _) CC); lia) CC) in V.
      unfold stored, disk in V. rewrite (proj2 (pyget_cell q n _ ltac:(lia)) CC) in V. cbn [bind deleted_in] in V. replace (n =? 0) with false in V by lia. congruence.
    + rewrite (value_is d n _ _ (edition_open _ _ _ _ _ _ _ _ _ E) PV CO) in V by lia. unfold value_of in V.
      destruct (pyget (SDict re :: skipn 1 q) n) as [c| |] eqn:PG; cbn [bind] in V; try discriminate. exfalso. apply pyget_cell in PG; [|lia]. pose proof (cell_range _ _ _ PG) as RG. cbn [length] in RG. rewrite skipn_length in RG. lia.
  - exists (opening_trailer e0 (closing_trailer (oldest_xsn cs) (Z.of_nat (length q)) (rvd (fs_trailer s)))). split.
    + rewrite (value_is d 0 _ _ (edition_open _ _ _ _ _ _ _ _ _ E) PV CO) by lia. unfold value_of.
      rewrite (proj2 (pyget_cell _ 0 _ ltac:(lia)) (ed_head _ _ _ _ _ _ _ _ _ E)), (proj2 (pyget_cell _ 0 _ ltac:(lia)) (ed_tr _ _ _ _ _ _ _ _ _ E)). cbn [bind deleted_in]. rewrite RDEL. reflexivity.
    + intros k K1 K2 K4. destruct (Forall_inv (sf_trailers _ _ SF)) as (X & W). change (B "/XRefStm") with K_XRefStm in X. change (B "/Size") with K_Size in K1. change (B "/Prev") with K_Prev in K2. change (B "/DecodeParms") with K_DecodeParms in K4.
      assert (Q : dget k (opening_trailer e0 (closing_trailer (oldest_xsn cs) (Z.of_nat (length q)) (rvd (fs_trailer s)))) = option_map rv (dget k (fs_trailer s))).
      { rewrite <- (dget_rvd k (fs_trailer s)) by (apply wfv_nodup; auto). destruct (list_eq_dec Z.eq_dec k K_XRefStm) as [->|K3].
        - rewrite opening_stm; rewrite ?closing_other by auto; rewrite dget_rvd, X by (apply wfv_nodup; auto); reflexivity.
        - rewrite opening_other by auto. now rewrite closing_other by auto. }
      rewrite Q. destruct (dget k (fs_trailer s)) as [v|] eqn:G; [|reflexivity]. exists (rv v). split; [reflexivity|].
      apply wfv_peq. inversion W; subst. apply dget_In in G. match goal with H : Forall _ (fs_trailer s) |- _ => rewrite Forall_forall in H; destruct (H _ G) end; auto.
Qed.

Lemma filter_rvd t : NoDup (map fst t) -> usual_filter t -> one_filter (rvd t).
Proof.
  intros ND [D Q]. change (B "/DecodeParms") with K_DecodeParms in D. change (B "/Filter") with K_Filter in Q. split; rewrite dget_rvd by auto.
  - destruct D as [->|(d & -> & NE)]; [left; reflexivity|right]. eexists. split; [reflexivity|]. destruct d as [|[k v] d]; [congruence|]. cbn [rv map rev]. destruct (rev _) as [|a b]; reflexivity.
  - destruct Q as [->|(n & [->| ->] & I)]; [left; reflexivity| |]; right; exists n; split; auto.
Qed.
Lemma spare_reusable F s r cs : sections_file F (s :: r) -> Forall2 (part_of F) (s :: r) cs -> stream_spare (s :: r) -> reusable F cs (rvd (fs_trailer s)).
Proof.
  intros SF SS SP k Q. rewrite (parts_oldest _ _ _ SS) in Q. destruct (SP k Q) as (K & (s0 & r0 & E & PF) & (t & p & IT & IP & NF) & NI). injection E as <- <-. split; auto. split.
  { destruct (sf_end _ _ SF) as (s1 & r1 & _ & FE). destruct (last_parts _ _ FE) as (b & e & l & _ & _ & _ & L100 & _). unfold blen. lia. }
  split; [apply filter_rvd; auto; apply wfv_nodup; apply (Forall_inv (sf_trailers _ _ SF))|]. split.
  - destruct (entry_there t k p IP ltac:(lia) NF) as (e & U & NE & _). apply In_nth_error in IT as [i I]. pose proof (F2_nth _ _ _ SS i) as H. rewrite I in H. destruct (nth_error cs i) as [c|] eqn:EC; [|destruct H]. exists c, e. split; [eapply nth_error_In; eauto|]. split; [eapply part_has; eauto|auto].
  - intros c e IC IE. destruct (Forall2_in_r _ _ _ _ SS IC) as (u & IU & SC). destruct (part_entries _ _ _ _ SC IE) as [U|(Q1 & Q2 & _)]; [|split; [congruence|lia]].
    destruct (entry_bounds _ _ _ _ SF IU U) as (n & q & L & _ & (E1 & _ & _ & _ & E5)). destruct q as [|off gen|env idx]; [destruct E5| |].
    + destruct E5 as (E5 & _). split; [congruence|auto].
    + destruct E5 as (_ & E5 & _). rewrite <- E1 in L. destruct (NI u _ env idx IU L) as [N1 N2]. split; [intro Q2; rewrite E5 in Q2; injection Q2 as Q2; exact (N2 Q2)|intro Q2; destruct (N1 Q2)].
Qed.
Theorem sections_update F s r f n G d0 d1 out d2 : sections_file F (s :: r) -> (length r <= f)%nat -> stream_spare (s :: r) -> oldest_num (s :: r) = None \/ zlib_ok ->
  maintained f F n G d0 -> revised d0 d1 -> writefile d1 = Ok (out, d2) -> blen out < 10 ^ 10 -> plainly_saved d1 d2 out ->
  (exists R, G = F ++ R) /\ (exists R, out = G ++ R) /\
  exists d3, loads (S n) out = Ok d3 /\ maintained f F (S n) out d3 /\ coherent d3 /\
    (forall k, 0 < k -> oldest_num (s :: r) <> Some k -> match value d1 k with Ok v => exists w, value d3 k = Ok w /\ peq v w | r => value d3 k = r end) /\
    exists ta tb m, value d1 0 = Ok (PDict ta) /\ value d3 0 = Ok (PDict tb) /\ same_trailer ta tb /\
      (oldest_num (s :: r) = None -> same_entries K_Prev (dset K_Size (PInt m) ta) tb).
Proof.
  intros SF LF SP ZO M RV W BL PS. destruct (file_stays F s r f SF LF) as (cs & cs' & SS & LA). pose proof (parts_oldest _ _ _ SS) as OX. pose proof (spare_reusable _ _ _ _ SF SS SP) as RU. rewrite <- OX in *.
  assert (CO : forall d, loads f F = Ok d -> coherent d) by (intros d LD; destruct (sections_load F s r f SF LF) as (d' & LD' & C & _); rewrite LD in LD'; injection LD' as <-; exact C).
  destruct (maintained_lasting f F cs cs' _ _ n G d0 LA RU ZO CO M) as (L & C & EF & cs2 & cs2' & x2 & t2 & LA2 & RU2 & OX2). rewrite <- OX2 in *.
  destruct (foreign_cycle n G cs2 cs2' x2 t2 d0 d1 out d2 LA2 RU2 ZO L C RV W BL PS) as (d3 & L3 & C3 & V3 & T3 & E3 & _).
  split; auto. split; auto. exists d3. split; auto. split; [eapply Ma_save; eauto|]. auto.
Qed.
End WithZlib.
