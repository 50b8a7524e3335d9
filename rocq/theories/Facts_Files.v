(* C102: files with xref tables, as other programs write them *)
From Coq Require Import String ZifyBool ZifyNat.
From Verif Require Import PyBase Model_Filters Model_Objects Model_Filestruct Model_Docstruct Model_Api Spec_Objects Spec_Filestruct Spec_Docstruct Spec_Api Spec_Save Spec_Foreign Spec_Syntax Spec_Files.
From Verif Require Import Facts_Base Facts_Token Facts_Obj Facts_Ser Facts_Parse Facts_Top Facts_Prov Facts_Write Facts_Xref Facts_Doc Facts_Commit Facts_Save Facts_Chain Facts_Stays Facts_Syntax Facts_Stored Facts_Tables.
From Verif Require Import Facts_Index Facts_Revision Facts_Foreign.

Section WithZlib.
Context {ZL : Zlib}.

(* ---------- the sections found ---------- *)
Definition sec_of (F : bytes) (s : ftable) (c : list ient) : Prop :=
  exists tp sx ep, c = close_section (section_entry (Z.of_nat (ft_pos s)) tp :: used (ft_list s)) false sx ep /\
    Z.of_nat (ft_pos s) <= tp < Z.of_nat (ft_pos s + length (ft_text s)) /\ 0 <= ep < blen F /\
    trailer_read F (Z.to_nat tp) = Ok (rvd (ft_trailer s)).
Definition plain (s : ftable) : Prop := dget (B "/XRefStm") (ft_trailer s) = None /\ wfv (PDict (ft_trailer s)).

Lemma table_found F s : table_in F s -> (ft_pos s + length (ft_text s) < length F)%nat /\ exists tp,
  Z.of_nat (ft_pos s) <= tp < Z.of_nat (ft_pos s + length (ft_text s)) /\ forall X,
  (forall last startx, Z.of_nat (ft_pos s) <= last -> read_section (PvSingle (F ++ X)) (Z.of_nat (ft_pos s)) last startx
     = Ok (section_entry (Z.of_nat (ft_pos s)) tp :: used (ft_list s), rvd (ft_trailer s), F ++ X)) /\
  trailer_read (F ++ X) (Z.to_nat tp) = Ok (rvd (ft_trailer s)).
Proof.
  intros (T & P0 & pre & g & post & EF & L & G). destruct (table_read _ _ _ T) as (k & KL & R).
  assert (LF : (length F = length pre + length (ft_text s) + length g + 9 + length post)%nat) by (rewrite EF, !app_length; change (length (B "startxref")) with 9%nat; lia).
  split; [lia|]. exists (Z.of_nat (length pre + k)). rewrite <- L. split; [lia|]. intro X.
  destruct (R pre (g ++ B "startxref" ++ post ++ X) (gap_startxref _ _ _ G)) as (_ & R2 & R3). cbv zeta in R2, R3.
  replace (pre ++ ft_text s ++ g ++ B "startxref" ++ post ++ X) with (F ++ X) in R2, R3 by (rewrite EF, <- !app_assoc; reflexivity).
  rewrite Nat2Z.id. split; [|exact R3]. intros last startx LE.
  destruct (single_at (F ++ X) (length pre) (last - Z.of_nat (length pre))) as (n & RA); [rewrite app_length; lia|lia|].
  specialize (R2 _ _ _ startx RA). replace (Z.of_nat (length pre) + (last - Z.of_nat (length pre))) with last in R2 by lia. exact R2.
Qed.

Lemma prev_of s q : plain s -> dget (B "/Prev") (ft_trailer s) = q -> int_entry K_XRefStm (rvd (ft_trailer s)) = Ok 0 /\ dhas K_XRefStm (rvd (ft_trailer s)) = false /\
  int_entry K_Prev (rvd (ft_trailer s)) = match q with None => Ok 0 | Some (PInt z) => Ok z | _ => int_entry K_Prev (rvd (ft_trailer s)) end.
Proof.
  intros [P1 W] P2. pose proof (wfv_nodup _ W) as ND. unfold int_entry, dhas. rewrite !dget_rvd by auto.
  change (B "/XRefStm") with K_XRefStm in P1. change (B "/Prev") with K_Prev in P2. rewrite P1, P2. cbn [option_map]. split; auto. split; auto. destruct q as [[]|]; auto.
Qed.

Definition end_after (F : bytes) (s : ftable) : Prop := exists b l, F = b ++ W_EOF ++ l /\ (ft_pos s <= length b)%nat.

Lemma chain_found F ts : linked ts -> Forall (table_in F) ts -> Forall plain ts -> Forall (end_after F) ts -> exists cs, Forall2 (sec_of F) ts cs /\
  forall X f, (length ts <= f)%nat -> xref_chain f (PvSingle (F ++ X)) (F ++ X) (match ts with s :: _ => Z.of_nat (ft_pos s) | [] => 0 end) 0 = Ok cs.
Proof.
  assert (STEP : forall s q, plain s -> table_in F s -> end_after F s -> int_entry K_Prev (rvd (ft_trailer s)) = Ok q -> exists c, sec_of F s c /\
    forall X f r, xref_chain f (PvSingle (F ++ X)) (F ++ X) q 0 = Ok r -> xref_chain (S f) (PvSingle (F ++ X)) (F ++ X) (Z.of_nat (ft_pos s)) 0 = Ok (c :: r)).
  { intros s q PL TI (b & l & EB & LB) Q. destruct (table_found F s TI) as (TL & tp & TP & RS). pose proof TI as (_ & P0 & pre & g & post & EF & LP & _).
    destruct (find_within W_startxref pre (ft_text s ++ g) post ltac:(discriminate)) as (sx & FX & _).
    replace (pre ++ (ft_text s ++ g) ++ W_startxref ++ post) with F in FX by (rewrite EF, <- !app_assoc; reflexivity). rewrite LP in FX.
    destruct (find_within W_EOF (firstn (ft_pos s) b) (skipn (ft_pos s) b) l ltac:(discriminate)) as (ep & FE & EP).
    assert (EQ : firstn (ft_pos s) b ++ skipn (ft_pos s) b ++ W_EOF ++ l = F) by (rewrite app_assoc, firstn_skipn; auto).
    rewrite EQ in FE, EP. rewrite firstn_length, Nat.min_l in FE, EP by auto.
    exists (close_section (section_entry (Z.of_nat (ft_pos s)) tp :: used (ft_list s)) false (Z.of_nat sx) (Z.of_nat ep)). split.
    - exists tp, (Z.of_nat sx), (Z.of_nat ep). split; [reflexivity|]. split; [auto|]. split; [unfold blen; lia|]. destruct (RS []) as [_ T]. now rewrite app_nil_r in T.
    - intros X f r XC. cbn [xref_chain]. replace (Z.of_nat (ft_pos s) =? 0) with false by lia. cbn [andb]. change (0 =? 0) with true. cbv iota.
      replace (Z.of_nat (ft_pos s) <? 0) with false by lia. rewrite Nat2Z.id.
      rewrite (find_grow W_startxref F X (ft_pos s) _ ltac:(discriminate) ltac:(lia) FX), (find_grow W_EOF F X (ft_pos s) _ ltac:(discriminate) ltac:(lia) FE). cbn [znat].
      destruct (RS X) as [R1 _]. rewrite R1 by lia. cbn [bind]. change (0 =? 0) with true. cbv iota. destruct (prev_of s _ PL eq_refl) as (A1 & A2 & _). rewrite A1, Q, A2. cbn [bind]. rewrite XC. reflexivity. }
  intros LK. induction LK as [s P|s s' r P GE LK IH]; intros FT FP FE.
  - inversion FT; inversion FP; inversion FE; subst. destruct (prev_of s None ltac:(auto) P) as (_ & _ & Q). destruct (STEP s 0) as (c & SC & ST); auto.
    exists [c]. split; [repeat constructor; auto|]. intros X f LF. destruct f as [|f]; [cbn in LF; lia|]. apply ST. destruct f; reflexivity.
  - inversion FT; inversion FP; inversion FE; subst. destruct (prev_of s _ ltac:(eauto) P) as (_ & _ & Q). destruct (STEP s (Z.of_nat (ft_pos s'))) as (c & SC & ST); auto.
    destruct IH as (cs & SS & XC); auto. exists (c :: cs). split; [constructor; auto|]. intros X f LF. destruct f as [|f]; [cbn in LF; lia|]. apply ST. apply XC. cbn [length] in *. lia.
Qed.

(* the end of the file *)
Lemma dig_not c ds : digits ds -> c < 48 \/ 57 < c -> ~ In c ds.
Proof. intros [_ D] C I. rewrite Forall_forall in D. specialize (D _ I). red in D. lia. Qed.
Lemma white_not c w : Forall white w -> 32 < c -> ~ In c w.
Proof. intros D C I. rewrite Forall_forall in D. specialize (D _ I). red in D. lia. Qed.
Lemma eol_not c w : Forall eol w -> 32 < c -> ~ In c w.
Proof. intros D C I. rewrite Forall_forall in D. specialize (D _ I). red in D. lia. Qed.

Lemma last_parts F pos : file_end F pos -> exists (b e l : bytes), F = e ++ W_EOF ++ l /\ Forall eol l /\ (length b < length e)%nat /\
  (100 <= length F)%nat /\
  rfind W_startxref F (Z.to_nat (-100 + blen F)) = Some (length b) /\ rfind W_EOF F (Z.to_nat (-100 + blen F)) = Some (length e) /\
  (forall a' b', F = a' ++ W_startxref ++ b' -> (length a' <= length b)%nat) /\
  (let '(i, j, _) := next_token F (length b + 9) in py_int 10 (sub F i j)) = Some (Z.of_nat pos).
Proof.
  intros (b & w1 & ds & w2 & l & EF & W1 & W1' & D & DP & W2 & W2' & L & L1 & L2).
  set (r := w1 ++ ds ++ w2 ++ B "%%EOF" ++ l). assert (E1 : F = b ++ W_startxref ++ r) by exact EF.
  set (e := b ++ W_startxref ++ w1 ++ ds ++ w2). assert (E2 : F = e ++ W_EOF ++ l) by (rewrite EF; unfold e; rewrite <- !app_assoc; reflexivity).
  assert (LR : length r = (length w1 + length ds + length w2 + 5 + length l)%nat) by (unfold r; rewrite !app_length; change (length (B "%%EOF")) with 5%nat; lia).
  assert (LE : length e = (length b + 9 + length w1 + length ds + length w2)%nat) by (unfold e; rewrite !app_length; change (length W_startxref) with 9%nat; lia).
  assert (LF : length F = (length b + 9 + length r)%nat) by (rewrite E1, !app_length; change (length W_startxref) with 9%nat; lia).
  assert (LAST : forall a' b', F = a' ++ W_startxref ++ b' -> (length a' <= length b)%nat).
  { intros a' b' E'. eapply (last_by_head 115 (skipn 1 W_startxref) b r F E1); [|exact E'].
    intros I. apply in_app_or in I as [I|I]; [cbn in I; lia|]. unfold r in I. apply in_app_or in I as [I|I]; [eapply white_not; [exact W1'| |exact I]; lia|].
    apply in_app_or in I as [I|I]; [eapply dig_not; [exact D| |exact I]; lia|]. apply in_app_or in I as [I|I]; [eapply white_not; [exact W2'| |exact I]; lia|].
    apply in_app_or in I as [I|I]; [cbn in I; lia|]. eapply eol_not; [exact L| |exact I]; lia. }
  exists b, e, l.
  split; [exact E2|]. split; [exact L|]. split; [lia|]. split; [lia|]. split; [|split; [|split]].
  - eapply rfind_last; [discriminate|exact E1|unfold blen; lia|exact LAST].
  - eapply rfind_last; [discriminate|exact E2|unfold blen; lia|]. intros a' b' E'.
    assert (Q : (length (a' ++ [37%Z; 37%Z]) <= length (e ++ [37%Z; 37%Z]))%nat); [|rewrite !app_length in Q; cbn [length] in Q; lia].
    apply (last_by_head 69 [79; 70] (e ++ [37; 37]) l F) with (b' := b'); [rewrite E2, <- app_assoc; reflexivity| |rewrite E', <- app_assoc; reflexivity].
    intros I. apply in_app_or in I as [I|I]; [cbn in I; lia|]. eapply eol_not; [exact L| |exact I]; lia.
  - exact LAST.
  - pose proof (next_token_white (b ++ W_startxref) w1 ds TInteger (w2 ++ B "%%EOF" ++ l) W1') as N.
    assert (DT : tokk ds TInteger) by (apply (digits_token ds); apply D).
    specialize (N DT (or_intror (white_sepstart w2 _ W2' W2))). rewrite app_length in N. change (length W_startxref) with 9%nat in N.
    replace ((b ++ W_startxref) ++ w1 ++ ds ++ w2 ++ B "%%EOF" ++ l) with F in N by (rewrite E1; unfold r; rewrite <- !app_assoc; reflexivity).
    rewrite N. replace (sub F _ _) with ds. 2:{ symmetry. replace F with ((b ++ W_startxref ++ w1) ++ ds ++ w2 ++ B "%%EOF" ++ l) by (rewrite E1; unfold r; rewrite <- !app_assoc; reflexivity).
      apply sub_app_exact; rewrite !app_length; change (length W_startxref) with 9%nat; lia. }
    rewrite <- DP. apply digits_int. exact D.
Qed.

(* ---------- what the tables list ---------- *)
Lemma decimal_pos a : Forall decdigit a -> 0 <= decimal a.
Proof.
  unfold decimal. assert (G : forall l z, Forall decdigit l -> 0 <= z -> 0 <= fold_left (fun a c => 10 * a + (c - 48)) l z).
  { induction l as [|c l IH]; intros zz FA N; cbn [fold_left]; auto. inversion FA as [|? ? D FA']; subst. red in D. apply IH; auto. lia. }
  intro FA. apply G; auto. lia.
Qed.
Lemma object_bounds F n x o : object_in F n x o -> 0 <= n /\ 0 <= te_off x < blen F.
Proof.
  intros (pre & txt & post & -> & L & a & w1 & b & w2 & w3 & s & g4 & -> & NA & FA & -> & _). split; [apply decimal_pos; auto|].
  rewrite <- L. unfold blen. rewrite !app_length. destruct a; [congruence|]. cbn [length]. lia.
Qed.
Lemma object_found F n x o : object_in F n x o -> exists o', peq o o' /\ forall X, object_read (F ++ X) (Z.to_nat (te_off x)) = Ok o'.
Proof.
  intros (pre & txt & post & EF & L & OT). destruct (stored_read _ _ _ _ OT) as (o' & P & R). exists o'. split; auto. intro X. rewrite <- L, Nat2Z.id.
  destruct (R pre (post ++ X)) as [R1 _]. rewrite EF, <- !app_assoc. exact R1.
Qed.

Definition entry_at (n : Z) (x : tabent) : ient := with_pos (Some (AInt (te_off x))) (ient0 n (te_gen x)).
Lemma used_bounds F ts s e : tabled_file F ts -> In s ts -> In e (used (ft_list s)) -> exists n x o, lists (ft_list s) n x /\ te_use x = true /\ n <> 0 /\ e = entry_at n x /\ object_in F n x o /\ 1 <= n /\ 0 <= te_off x < blen F.
Proof.
  intros TF I U. apply used_in in U as (n & x & L & US & N & ->). destruct (tf_objects _ _ TF s n x I L US N) as [o O]. destruct (object_bounds _ _ _ _ O) as [A1 A2].
  exists n, x, o. split; auto. split; auto. split; auto. split; [reflexivity|]. split; auto. lia.
Qed.
Lemma sec_entries F s c e : sec_of F s c -> In e (tl c) -> In e (used (ft_list s)) \/ n_num e = -1 /\ n_env e = None /\ n_next e = None /\ n_del e = false /\ exists ep, n_pos e = Some (AInt ep) /\ 0 <= ep < blen F.
Proof.
  intros (tp & sx & ep & -> & _ & EP & _) I. cbn [close_section tl] in I. apply in_app_or in I as [I|[<-|[]]]; auto. right. split; [reflexivity|]. split; [reflexivity|]. split; [reflexivity|]. split; [reflexivity|]. exists ep. split; [reflexivity|auto].
Qed.

Lemma secs_order F ts : linked ts -> Forall (table_in F) ts -> forall cs, Forall2 (sec_of F) ts cs -> increasing 0 (rev cs) /\
  forall t es p s r, ts = s :: r -> In (t :: es) cs -> n_pos t = Some (AInt p) -> p < Z.of_nat (ft_pos s + length (ft_text s)).
Proof.
  induction 1 as [s P|s s' r P GE LK IH]; intros FT cs SS.
  - inversion SS as [|? c ? rc SC SR]; subst. inversion SR; subst. inversion FT as [|? ? (_ & P0 & _) _]; subst. destruct SC as (tp & sx & ep & -> & TP & _). split.
    + cbn [rev app close_section increasing]. eexists _, _, _. split; [reflexivity|]. split; [reflexivity|]. split; [reflexivity|]. split; auto. lia.
    + intros t es p s0 r0 Q [E|[]] HP. injection Q as <- <-. cbn [close_section] in E. injection E as <- _. cbn in HP. injection HP as <-. lia.
  - inversion SS as [|? c ? rc SC SR]; subst. inversion FT as [|? ? (_ & P0 & _) FT']; subst. destruct (IH FT' rc SR) as [I1 I2]. destruct SC as (tp & sx & ep & -> & TP & _). split.
    + cbn [rev close_section]. apply (increasing_snoc tp); auto; [lia|]. intros t' es' p' I HP. apply in_rev in I. specialize (I2 _ _ _ _ _ eq_refl I HP). lia.
    + intros t es p s0 r0 Q [E|I] HP; injection Q as <- <-.
      * cbn [close_section] in E. injection E as <- _. cbn in HP. injection HP as <-. lia.
      * specialize (I2 _ _ _ _ _ eq_refl I HP). lia.
Qed.

Lemma Forall2_in_r {A C} (P : A -> C -> Prop) l l' c : Forall2 P l l' -> In c l' -> exists a, In a l /\ P a c.
Proof. induction 1 as [|a c0 l l' H FA IH]; intro I; [destruct I|]. destruct I as [<-|I]; [exists a; split; [left; auto|auto]|]. destruct (IH I) as (a' & A1 & A2). exists a'. split; [right; auto|auto]. Qed.

Lemma secs_sectioned F ts cs : tabled_file F ts -> Forall2 (sec_of F) ts cs -> sectioned F cs.
Proof.
  intros TF SS. assert (HD : forall c e, In c cs -> In e (tl c) -> n_env e = None).
  { intros c e I J. destruct (Forall2_in_r _ _ _ _ SS I) as (s & IS & SC). destruct (sec_entries _ _ _ _ SC J) as [U|(_ & Q & _)]; auto.
    destruct (used_bounds _ _ _ _ TF IS U) as (n & x & o & _ & _ & _ & -> & _). reflexivity. }
  pose proof (tf_tables _ _ TF) as FT. pose proof (tf_linked _ _ TF) as LK. constructor.
  - apply (secs_order F ts LK FT cs SS).
  - intros c e I J. destruct (Forall2_in_r _ _ _ _ SS I) as (s & IS & SC). pose proof SC as (tp & sx & ep & EC & TP & _ & _).
    rewrite Forall_forall in FT. destruct (table_found F s (FT _ IS)) as [TL _].
    assert (J' : e = hd e c \/ In e (tl c)) by (rewrite EC in *; destruct J as [<-|J]; auto). destruct J' as [->|J'].
    + rewrite EC. cbn [close_section hd]. split; [reflexivity|]. split; [reflexivity|]. left. exists tp. split; [split; reflexivity|unfold blen; lia].
    + destruct (sec_entries _ _ _ _ SC J') as [U|(_ & Q1 & Q2 & Q3 & p & Q4 & Q5)].
      * destruct (used_bounds _ _ _ _ TF IS U) as (n & x & o & _ & _ & _ & -> & _ & _ & B). split; [reflexivity|]. split; [reflexivity|]. left. exists (te_off x). split; [split; reflexivity|auto].
      * split; auto. split; auto. left. exists p. split; [split; auto|auto].
  - intros c I. destruct (Forall2_in_r _ _ _ _ SS I) as (s & IS & tp & sx & ep & -> & _). eexists _, _. split; [reflexivity|]. split; reflexivity.
  - intros c e I J. destruct (Forall2_in_r _ _ _ _ SS I) as (s & IS & SC). destruct (sec_entries _ _ _ _ SC J) as [U|(Q1 & Q2 & _)]; [right|left; auto].
    destruct (used_bounds _ _ _ _ TF IS U) as (n & x & o & _ & _ & _ & -> & _ & N & _). split; [exact N|]. exists c, (entry_at n x). split; auto. split; auto. split; [reflexivity|lia].
  - intros c I. destruct (Forall2_in_r _ _ _ _ SS I) as (s & IS & tp & sx & ep & -> & _). cbn [close_section tl]. eexists. split; [apply in_or_app; right; left; reflexivity|reflexivity].
  - intros j c e env J I EV. apply nth_error_In, in_rev in J. rewrite (HD c e J I) in EV. discriminate.
  - intros j c e env i s' e' J I EV. apply nth_error_In, in_rev in J. rewrite (HD c e J I) in EV. discriminate.
Qed.

(* ---------- the file is read as its tables say ---------- *)
Lemma file_sections F s r f : tabled_file F (s :: r) -> (length r <= f)%nat -> exists c cs b l sx tp,
  xref_chrono f (PvSingle F) = Ok (c :: cs) /\ Forall2 (sec_of F) (s :: r) (c :: cs) /\ F = b ++ W_EOF ++ l /\ Forall eol l /\
  c = close_section (section_entry (Z.of_nat (ft_pos s)) tp :: used (ft_list s)) false sx (blen b) /\ trailer_read F (Z.to_nat tp) = Ok (rvd (ft_trailer s)) /\
  exists cs', Forall2 (sec_of F) (s :: r) cs' /\ forall X, xref_chain (S f) (PvSingle (F ++ X)) (F ++ X) (Z.of_nat (ft_pos s)) 0 = Ok cs'.
Proof.
  intros TF LF. destruct (tf_end _ _ TF) as (s0 & r0 & Q & FE). injection Q as <- <-. destruct (last_parts _ _ FE) as (b & e & l & E2 & L & LBE & L100 & RX & RE & LAST & NT).
  pose proof (tf_tables _ _ TF) as FT. pose proof (tf_linked _ _ TF) as LK. pose proof (tf_trailers _ _ TF) as FP.
  assert (PB : (ft_pos s <= length b)%nat).
  { destruct (Forall_inv FT) as (_ & _ & pre & g & post & EF & LP & _). specialize (LAST (pre ++ ft_text s ++ g) post). rewrite !app_length in LAST. rewrite <- LP.
    enough (length pre + (length (ft_text s) + length g) <= length b)%nat by lia. apply LAST. rewrite EF at 1. rewrite <- !app_assoc. reflexivity. }
  assert (EA : Forall (end_after F) (s :: r)).
  { assert (G : forall ts, linked ts -> forall a q, ts = a :: q -> (ft_pos a <= length b)%nat -> Forall (end_after F) ts).
    { induction 1 as [u U|u u' q U GE LK' IH]; intros a q' Q PA; injection Q as <- <-; constructor; auto.
      - exists e, l. split; [auto|lia]. - exists e, l. split; [auto|lia]. - apply (IH u' q eq_refl). lia. }
    exact (G _ LK s r eq_refl PB). }
  destruct (chain_found F (s :: r) LK FT FP EA) as (cs' & SS' & XC).
  pose proof (Forall_inv FT) as TI. pose proof (Forall_inv_tail FT) as FT'. pose proof (Forall_inv FP) as PL. pose proof (Forall_inv_tail FP) as FP'. pose proof (Forall_inv_tail EA) as EA'.
  destruct (table_found F s TI) as (TL & tp & TP & RS). specialize (RS []) as (R1 & R2). rewrite app_nil_r in R1, R2.
  assert (RC : exists cs, Forall2 (sec_of F) r cs /\ exists q, int_entry K_Prev (rvd (ft_trailer s)) = Ok q /\ xref_chain f (PvSingle F) F q 0 = Ok cs).
  { clear E2 EA. inversion LK as [? P|? s1 r1 P GE LK']; subst.
    - exists []. split; [constructor|]. exists 0. destruct (prev_of s _ PL P) as (_ & _ & Q). split; auto. destruct f; reflexivity.
    - destruct (chain_found F (s1 :: r1) LK' FT' FP' EA') as (cs & SS & XC'). exists cs. split; auto. exists (Z.of_nat (ft_pos s1)). destruct (prev_of s _ PL P) as (_ & _ & Q). split; auto.
      specialize (XC' [] f LF). now rewrite app_nil_r in XC'. }
  destruct RC as (cs & SS & q & Q & XQ). destruct (prev_of s _ PL eq_refl) as (A1 & A2 & _).
  exists (close_section (section_entry (Z.of_nat (ft_pos s)) tp :: used (ft_list s)) false (Z.of_nat (length b)) (blen e)), cs, e, l, (Z.of_nat (length b)), tp.
  split; [|split; [|split; [auto|split; [auto|split; [reflexivity|split; [auto|]]]]]].
  - unfold xref_chrono. destruct (single_read F (-100) (-1)) as (n & R & _); [intros ->; cbn in L100; lia|unfold blen; lia|lia|].
    cbn [Z.ltb Z.compare] in R. rewrite R. cbn [bind]. rewrite RX, RE. cbn [znat].
    replace (Z.to_nat (Z.of_nat (length b) + 9)) with (length b + 9)%nat by lia.
    destruct (next_token F (length b + 9)) as [[i j] k]. rewrite NT. cbn [of_opt bind]. rewrite R1 by lia. cbn [bind]. rewrite A1, Q, A2. cbn [bind]. rewrite XQ. reflexivity.
  - constructor; auto. exists tp, (Z.of_nat (length b)), (blen e). split; [reflexivity|]. split; [auto|]. split; [|auto]. rewrite E2. rewrite !blen_app. unfold blen. change (length W_EOF) with 5%nat. lia.
  - exists cs'. split; auto. intro X. apply XC. cbn [length]. lia.
Qed.

Lemma used_filter s : forall F ts, tabled_file F ts -> In s ts -> filter (fun e => 0 <? n_num e) (used (ft_list s)) = used (ft_list s).
Proof.
  intros F ts TF I. assert (G : forall l, (forall e, In e l -> 0 < n_num e) -> filter (fun e => 0 <? n_num e) l = l).
  { induction l as [|a l IH]; intro H; cbn [filter]; auto. replace (0 <? n_num a) with true by (specialize (H a (or_introl eq_refl)); lia). f_equal. apply IH. intros e J. apply H. right. auto. }
  apply G. intros e U. destruct (used_bounds _ _ _ _ TF I U) as (n & x & o & _ & _ & _ & -> & _ & N & _). cbn. lia.
Qed.
Lemma secs_alike F ts cs cs' : Forall2 (sec_of F) ts cs -> Forall2 (sec_of F) ts cs' -> Forall2 alike cs cs'.
Proof.
  intro SS. revert cs'. induction SS as [|s c ts cs SC SS IH]; intros cs' SS'; inversion SS' as [|? c' ? cs2 SC' SS2]; subst; constructor; auto.
  destruct SC as (tp & sx & ep & -> & _). destruct SC' as (tp' & sx' & ep' & -> & _). split.
  - cbn [close_section tl]. rewrite !filter_app. reflexivity.
  - eexists _, _, _, _. split; [reflexivity|]. split; reflexivity.
Qed.
Lemma secs_oldest F ts cs : Forall2 (sec_of F) ts cs -> oldest_xsn cs = None.
Proof.
  intro SS. unfold oldest_xsn. destruct (rev cs) as [|c r] eqn:E; auto. assert (I : In c cs) by (apply in_rev; rewrite E; left; auto).
  destruct (Forall2_in_r _ _ _ _ SS I) as (s & _ & tp & sx & ep & -> & _). reflexivity.
Qed.

Lemma file_lasting F s r f : tabled_file F (s :: r) -> (length r <= f)%nat -> exists cs cs',
  Forall2 (sec_of F) (s :: r) cs /\ lasting f F cs cs' (Z.of_nat (ft_pos s)) (rvd (ft_trailer s)).
Proof.
  intros TF LF. destruct (file_sections F s r f TF LF) as (c & cs & b & l & sx & tp & RD & SS & EF & EL & EC & TR & cs' & SS' & XC).
  exists (c :: cs), cs'. split; [exact SS|]. constructor.
  - constructor.
    + exact RD.
    + exact (secs_sectioned _ _ _ TF SS).
    + destruct (Forall_inv (tf_tables _ _ TF)) as (_ & P0 & _). split; [lia|]. rewrite EC. cbn [close_section]. eexists _, _, _, tp. split; [reflexivity|]. split; [reflexivity|]. split; [reflexivity|]. exact TR.
    + destruct (Forall_inv (tf_trailers _ _ TF)) as (X & W). split; [apply wfv_rvd; auto|]. rewrite dget_rvd by (apply wfv_nodup; auto). change (B "/XRefStm") with K_XRefStm in X. rewrite X. reflexivity.
    + exists b, l, c, cs. split; auto. split; auto. split; auto. intros e I NE. rewrite EC in I. cbn [close_section tl] in I. apply in_app_or in I as [I|[<-|[]]]; [|reflexivity].
      destruct (used_bounds _ _ _ _ TF (or_introl eq_refl) I) as (n & x & o & _ & _ & _ & -> & _ & N & _). cbn in NE. lia.
    + destruct (tf_news _ _ TF) as (s0 & r0 & n & x & Q & LS & US & N0 & NEW). injection Q as <- <-.
      assert (U : In (entry_at n x) (used (ft_list s))) by (apply used_in; exists n, x; auto).
      destruct (used_bounds _ _ _ _ TF (or_introl eq_refl) U) as (n' & x' & o & _ & _ & _ & E & _ & N & _). assert (n = n') by (apply (f_equal n_num) in E; exact E). subst n'.
      rewrite EC. cbn [close_section]. eexists _, _, cs, (entry_at n x). split; [reflexivity|]. split; [apply in_or_app; left; exact U|]. split; [cbn; lia|]. split; [discriminate|].
      inversion SS as [|? ? ? ? _ SR]; subst. intros s' e' I J NN. destruct (Forall2_in_r _ _ _ _ SR I) as (t & IT & SC). destruct (sec_entries _ _ _ _ SC J) as [U2|(Q & _)]; [|rewrite NN in Q; cbn in Q; lia].
      apply used_in in U2 as (n2 & x2 & L2 & US2 & N2 & ->). cbn in NN. subst n2. cbn. intro Q. injection Q as Q. exact (NEW t x2 IT L2 US2 Q).
  - split; [eapply secs_alike; eauto|]. exact (secs_sectioned _ _ _ TF SS').
  - exact XC.
  - intros c0 e p X I J N DA. destruct (Forall2_in_r _ _ _ _ SS I) as (t & IT & SC). destruct (sec_entries _ _ _ _ SC J) as [U|(Q & _)]; [|lia].
    destruct (used_bounds _ _ _ _ TF IT U) as (n & x & o & _ & _ & _ & -> & OI & _). destruct DA as [_ P]. cbn in P. injection P as <-.
    destruct (object_found _ _ _ _ OI) as (o' & _ & R). rewrite R. specialize (R []). rewrite app_nil_r in R. now rewrite R.
Qed.

(* ---------- the objects of the document ---------- *)
Lemma newest_history F ts0 : tabled_file F ts0 -> forall ts n x, newest ts n x -> (forall s, In s ts -> In s ts0) -> 0 < n -> forall cs, Forall2 (sec_of F) ts cs ->
  exists v e h, history n 0 [] (rev cs) = (v, e) :: h /\ direct_at e (te_off x).
Proof.
  intros TF ts n x NW. induction NW as [s r n x L US|s r n x NO NW IH]; intros SUB N0 cs SS; inversion SS as [|? c ? cs2 (tp & sx & ep & -> & _) SR]; subst.
  - rewrite history_section by auto. assert (FA : Forall (fun e => n_pos e = Some (AInt (te_off x))) (filter (fun e => n_num e =? n) (used (ft_list s)))).
    { apply Forall_forall. intros e I. apply filter_In in I as [I NE]. apply used_in in I as (n2 & y & L2 & US2 & N2 & ->). cbn in NE. assert (n2 = n) by lia. subst n2.
      rewrite (tf_once _ _ TF s n x y (SUB s (or_introl eq_refl)) L L2 US US2). reflexivity. }
    assert (NE : filter (fun e => n_num e =? n) (used (ft_list s)) <> []).
    { intro Q. assert (I : In (entry_at n x) (filter (fun e => n_num e =? n) (used (ft_list s)))) by (apply filter_In; split; [apply used_in; exists n, x; repeat split; auto; lia|cbn; lia]). rewrite Q in I. destruct I. }
    destruct (top_pos (Z.of_nat (length cs2)) (AInt (te_off x)) _ (history n 0 [] (rev cs2)) (or_introl NE) FA) as (v & e & h & E & P). exists v, e, h. split; auto. split; auto.
    assert (I : In (v, e) (history n 0 [] (rev (close_section (section_entry (Z.of_nat (ft_pos s)) tp :: used (ft_list s)) false sx ep :: cs2)))) by (rewrite history_section by auto; rewrite E; left; auto).
    apply history_in in I as [[]|(j & c & J & _ & I & NN)]. apply nth_error_In, in_rev in J. destruct (Forall2_in_r _ _ _ _ SS J) as (t & IT & SC).
    destruct (sec_entries _ _ _ _ SC I) as [U|(_ & Q & _)]; auto. apply used_in in U as (n2 & y & _ & _ & _ & ->). reflexivity.
  - rewrite history_section by auto. replace (filter (fun e => n_num e =? n) (used (ft_list s))) with (@nil ient).
    2:{ symmetry. destruct (filter _ (used (ft_list s))) as [|e l] eqn:Q; auto. exfalso. assert (I : In e (filter (fun e => n_num e =? n) (used (ft_list s)))) by (rewrite Q; left; auto).
        apply filter_In in I as [I NE]. apply used_in in I as (n2 & y & L2 & US2 & N2 & ->). cbn in NE. assert (n2 = n) by lia. subst n2. specialize (NO y L2). congruence. }
    cbn [fold_left]. apply IH; auto. intros t I. apply SUB. right. auto.
Qed.
Lemma unlisted_history F ts cs n : Forall2 (sec_of F) ts cs -> 0 < n -> (forall s x, In s ts -> lists (ft_list s) n x -> te_use x = false) -> history n 0 [] (rev cs) = [].
Proof.
  intros SS N H. apply history_none. intros c e I J Q. apply in_rev in I. destruct (Forall2_in_r _ _ _ _ SS I) as (s & IS & SC). destruct (sec_entries _ _ _ _ SC J) as [U|(Q2 & _)]; [|lia].
  apply used_in in U as (n2 & y & L2 & US2 & N2 & ->). cbn in Q. subst n2. rewrite (H s y IS L2) in US2. discriminate.
Qed.

Theorem file_loads F s r f : tabled_file F (s :: r) -> (length r <= f)%nat -> exists d, loads f F = Ok d /\ coherent d /\
  (forall n x o, 0 < n -> newest (s :: r) n x -> object_in F n x o -> exists v, value d n = Ok v /\ peq o v) /\
  (forall n v, 0 < n -> (forall t x, In t (s :: r) -> lists (ft_list t) n x -> te_use x = false) -> value d n = Ok v -> v = PNone) /\
  exists t, value d 0 = Ok (PDict t) /\ forall k, k <> B "/Size" -> k <> B "/Prev" -> dget k t = option_map rv (dget k (ft_trailer s)).
Proof.
  intros TF LF. destruct (file_lasting F s r f TF LF) as (cs & cs' & SS & LA). pose proof (la_readable _ _ _ _ _ _ LA) as RB. pose proof (rb_secs _ _ _ _ _ RB) as SC. pose proof (secs_oldest _ _ _ SS) as OX.
  destruct (load_any f F cs _ _ RB ltac:(rewrite OX; discriminate)) as (d & nb & q & e0 & LD & L). destruct (loaded_calm _ _ _ _ _ _ _ _ L SC) as (CQ & CK).
  assert (CO : coherent d).
  { apply coherent_direct. intros row n e [l0 OR] C. destruct (ld_index _ _ _ _ _ _ _ _ L) as (l & re & E1 & LL & E2 & _). rewrite E1 in OR. change [q; SDict re :: skipn 1 q] with ([q] ++ [SDict re :: skipn 1 q]) in OR. rewrite app_assoc in OR. apply app_inj_tail in OR as [_ <-].
    pose proof (cell_range _ _ _ C) as RG. destruct (Z.eq_dec n 0) as [->|N]; [destruct C as [_ C]; cbn in C; injection C as <-; auto|].
    destruct (ld_len _ _ _ _ _ _ _ _ L) as (NB & LQ & _). assert (C' : cell q n (SDict e)) by (refine (proj1 (cell_cons_skip _ q n _ _ _) C); lia).
    destruct (CK n e ltac:(lia) C') as (v & c & e1 & h & I & J & NN & _ & K). destruct K as (_ & _ & K & _). rewrite K. destruct (Forall2_in_r _ _ _ _ SS I) as (t & IT & SD). destruct (sec_entries _ _ _ _ SD J) as [U|(Q & _)]; [|lia].
    apply used_in in U as (n2 & y & _ & _ & _ & ->). reflexivity. }
  exists d. split; auto. split; auto.
  destruct (loaded_edition _ _ _ _ _ _ _ _ L SC CO) as (l & re & data & E & _ & _ & RDEL & _ & _ & dx & ED & _). rewrite ED in E. pose proof (edition_provider _ _ _ _ _ _ _ _ _ _ E) as PV.
  destruct (ld_len _ _ _ _ _ _ _ _ L) as (NB & LQ & LC). split; [|split].
  - intros n x o N NW OI. destruct (newest_history F _ TF _ n x NW (fun _ H => H) N cs SS) as (v & e & h & HE & DA).
    assert (NN : n <= nb).
    { assert (I : In (v, e) (history n 0 [] (rev cs))) by (rewrite HE; left; auto). apply history_in in I as [[]|(j & c & J & _ & I & Q)]. apply nth_error_In, in_rev in J. rewrite <- Q. exact (proj1 (ld_nb _ _ _ _ _ _ _ _ L) c e J I). }
    destruct (ld_cells _ _ _ _ _ _ _ _ L n ltac:(lia)) as (c & CC & M). rewrite HE in M. destruct M as (e' & -> & K). pose proof K as (_ & _ & K3 & K4 & _ & _ & _ & K8). destruct (K8 _ DA) as (P & nx & NX & LT).
    destruct (CQ n _ N CC) as [Q|(e2 & Q & DEL & _)]; [discriminate|]. injection Q as <-. rewrite (value_old _ _ _ _ _ _ _ _ _ n _ E CQ PV N ltac:(refine (proj2 (cell_cons_skip _ q n _ _ _) CC); lia) CC).
    unfold stored, disk. rewrite (proj2 (pyget_cell q n _ ltac:(lia)) CC). cbn [bind deleted_in]. replace (n =? 0) with false by lia. rewrite K3. destruct DA as [DA _]. rewrite DA.
    destruct (object_bounds _ _ _ _ OI) as [_ OB]. rewrite (parse_single F e' (te_off x) nx P NX OB LT). destruct (object_found _ _ _ _ OI) as (o' & PQ & R). specialize (R []). rewrite app_nil_r in R. rewrite R. eauto.
  - intros n v N H V. pose proof (unlisted_history F _ cs n SS N H) as HE. destruct (Z.le_gt_cases n nb) as [LE|GT].
    + destruct (ld_cells _ _ _ _ _ _ _ _ L n ltac:(lia)) as (c & CC & M). rewrite HE in M. cbn in M. subst c. rewrite (value_old _ _ _ _ _ _ _ _ _ n _ E CQ PV N ltac:(refine (proj2 (cell_cons_skip _ q n _ _ _) CC); lia) CC) in V.
      unfold stored, disk in V. rewrite (proj2 (pyget_cell q n _ ltac:(lia)) CC) in V. cbn [bind deleted_in] in V. replace (n =? 0) with false in V by lia. congruence.
    + rewrite (value_is d n _ _ (edition_open _ _ _ _ _ _ _ _ _ E) PV CO) in V by lia. unfold value_of in V.
      destruct (pyget (SDict re :: skipn 1 q) n) as [c| |] eqn:PG; cbn [bind] in V; try discriminate. exfalso. apply pyget_cell in PG; [|lia]. pose proof (cell_range _ _ _ PG) as RG. cbn [length] in RG. rewrite skipn_length in RG. lia.
  - exists (opening_trailer e0 (closing_trailer (oldest_xsn cs) (Z.of_nat (length q)) (rvd (ft_trailer s)))). split.
    + rewrite (value_is d 0 _ _ (edition_open _ _ _ _ _ _ _ _ _ E) PV CO) by lia. unfold value_of.
      rewrite (proj2 (pyget_cell _ 0 _ ltac:(lia)) (ed_head _ _ _ _ _ _ _ _ _ E)), (proj2 (pyget_cell _ 0 _ ltac:(lia)) (ed_tr _ _ _ _ _ _ _ _ _ E)). cbn [bind deleted_in]. rewrite RDEL. reflexivity.
    + intros k K1 K2. destruct (Forall_inv (tf_trailers _ _ TF)) as (X & W). change (B "/XRefStm") with K_XRefStm in X. change (B "/Size") with K_Size in K1. change (B "/Prev") with K_Prev in K2. rewrite <- (dget_rvd k (ft_trailer s)) by (apply wfv_nodup; auto).
      rewrite OX, closing_none. destruct (list_eq_dec Z.eq_dec k K_XRefStm) as [->|K3].
      * rewrite opening_stm; rewrite ?dget_dset_neq by discriminate; rewrite dget_rvd, X by (apply wfv_nodup; auto); reflexivity.
      * rewrite opening_other by auto. now rewrite dget_dset_neq by auto.
Qed.

Theorem file_opened F s r f : tabled_file F (s :: r) -> (length r <= f)%nat -> exists d, loads f F = Ok d /\ coherent d /\
  (forall n x o, 0 < n -> newest (s :: r) n x -> object_in F n x o -> exists v, value d n = Ok v /\ peq o v) /\
  (forall n v, 0 < n -> (forall t x, In t (s :: r) -> lists (ft_list t) n x -> te_use x = false) -> value d n = Ok v -> v = PNone) /\
  exists t, value d 0 = Ok (PDict t) /\ forall k, k <> B "/Size" -> k <> B "/Prev" ->
    match dget k (ft_trailer s) with None => dget k t = None | Some v => exists w, dget k t = Some w /\ peq v w end.
Proof.
  intros TF LF. destruct (file_loads F s r f TF LF) as (d & A1 & A2 & A3 & A4 & t & A5 & A6). exists d. split; auto. split; auto. split; auto. split; auto. exists t. split; auto.
  intros k K1 K2. rewrite (A6 k K1 K2). destruct (Forall_inv (tf_trailers _ _ TF)) as (_ & W). destruct (dget k (ft_trailer s)) as [v|] eqn:Q; [|reflexivity]. exists (rv v). split; [reflexivity|].
  apply wfv_peq. inversion W; subst. apply dget_In in Q. match goal with H : Forall _ (ft_trailer s) |- _ => rewrite Forall_forall in H; destruct (H _ Q) end; auto.
Qed.

Theorem file_updated F s r f n G d0 d1 out d2 : tabled_file F (s :: r) -> (length r <= f)%nat ->
  maintained f F n G d0 -> revised d0 d1 -> writefile d1 = Ok (out, d2) -> blen out < 10 ^ 10 -> plainly_saved d1 d2 out ->
  (exists R, G = F ++ R) /\ (exists R, out = G ++ R) /\
  exists d3, loads (S n) out = Ok d3 /\ maintained f F (S n) out d3 /\ coherent d3 /\
    (forall k, 0 < k -> match value d1 k with Ok v => exists w, value d3 k = Ok w /\ peq v w | r => value d3 k = r end) /\
    exists ta tb m, value d1 0 = Ok (PDict ta) /\ value d3 0 = Ok (PDict tb) /\ same_entries K_Prev (dset K_Size (PInt m) ta) tb.
Proof.
  intros TF LF M RV W BL PS. destruct (file_lasting F s r f TF LF) as (cs & cs' & SS & LA). pose proof (secs_oldest _ _ _ SS) as OX.
  assert (RU : reusable F cs (rvd (ft_trailer s))) by (intros k Q; congruence).
  assert (CO : forall d, loads f F = Ok d -> coherent d) by (intros d LD; destruct (file_loads F s r f TF LF) as (d' & LD' & C & _); rewrite LD in LD'; injection LD' as <-; exact C).
  destruct (maintained_lasting f F cs cs' _ _ n G d0 LA RU (or_introl OX) CO M) as (L & C & EF & cs2 & cs2' & x2 & t2 & LA2 & RU2 & OX2). rewrite OX in OX2.
  destruct (foreign_cycle n G cs2 cs2' x2 t2 d0 d1 out d2 LA2 RU2 ltac:(left; congruence) L C RV W BL PS) as (d3 & L3 & C3 & V3 & (ta & tb & m & T1 & T2 & _ & T4) & E3 & _).
  split; auto. split; auto. exists d3. split; auto. split; [eapply Ma_save; eauto|]. split; [exact C3|]. split; [intros k K; apply V3; [auto|congruence]|]. exists ta, tb, m. split; [exact T1|]. split; [exact T2|]. apply T4. exact OX2.
Qed.

End WithZlib.
