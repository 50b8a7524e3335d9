(* Object streams: written and read back *)
From Coq Require Import String ZifyBool ZifyNat.
From Verif Require Import PyBase Model_Filters Model_Objects Model_Filestruct Spec_Objects Spec_Filestruct Spec_Objstm
  Facts_Base Facts_Token Facts_Obj Facts_Ser Facts_Parse Facts_Top Facts_Stream Facts_Filters Facts_Refs Facts_Prov Facts_Xref Facts_Indirect Facts_Xstm Facts_Pages Facts_Remove.

Section WithZlib.
Context {ZL : Zlib}.

(* ---------- sequences of tokens ---------- *)
Record seg := mk_seg { sg_w : bytes; sg_v : bytes; sg_k : tok }.
Definition seg_ok (s : seg) : Prop := Forall white (sg_w s) /\ tokk (sg_v s) (sg_k s).
Definition seg_text (s : seg) : bytes := sg_w s ++ sg_v s.
Definition segs_text (l : list seg) : bytes := flat_map seg_text l.
Definition spaced (l : list seg) : Prop := Forall (fun s => sg_w s <> []) l.
Fixpoint seg_starts (i : nat) (l : list seg) : list nat :=
  match l with [] => [] | s :: r => (i + length (sg_w s))%nat :: seg_starts (i + length (seg_text s)) r end.

Lemma tokk_nonempty v k : tokk v k -> v <> [].
Proof. intros T ->. specialize (T [32] 0%nat [] 0%nat (or_intror (sep_cons 32 [] ltac:(unfold white; lia)))). vm_compute in T. discriminate. Qed.
Lemma white_none w : Forall white w -> w <> [] -> forall rest h cur i, (rest = [] \/ exists r, rest = 93 :: r) ->
  exists h', ntok STbd 1 false h cur i (w ++ rest) = (h', (i + length w)%nat, None).
Proof.
  induction 1 as [|c w HC W IH]; intros NE rest h cur i R; [congruence|]. cbn [app]. rewrite tbd_white by auto. destruct w as [|c2 w].
  - cbn [app length]. destruct R as [->|(r & ->)].
    + eexists. cbn. rewrite Nat.add_1_r. reflexivity.
    + nstep. cbn [Z.eqb Pos.eqb andb]. eexists. f_equal. f_equal. lia.
  - destruct (IH ltac:(discriminate) rest i (c :: (c2 :: w) ++ rest) (S i) R) as (h' & ->). exists h'. cbn [length]. f_equal. f_equal. lia.
Qed.
Lemma segs_sep l tr : spaced l -> Forall seg_ok l -> tr <> [] -> Forall white tr -> sepstart (segs_text l ++ tr).
Proof.
  intros SP F N W. destruct l as [|s l].
  - destruct tr as [|c tr]; [congruence|]. inversion W; subst. apply sep_cons; auto.
  - inversion SP as [|? ? SN _]; inversion F as [|? ? (FW & _) _]; subst. unfold segs_text. cbn [flat_map]. unfold seg_text at 1. destruct (sg_w s) as [|c w]; [congruence|]. inversion FW; subst. apply sep_cons; auto.
Qed.
Lemma starts_step fuel t i h j k : (i < length t)%nat -> next_token t i = (h, j, k) -> token_starts (S fuel) t i = let* l := token_starts fuel t j in Ok (h :: l).
Proof. intros L E. cbn [token_starts]. replace (i <? length t)%nat with true by (symmetry; apply Nat.ltb_lt; auto). rewrite E. reflexivity. Qed.
Lemma tokens_of_segs l tr : Forall seg_ok l -> Forall white tr -> tr <> [] -> forall pre fuel, spaced (tl l) -> (length l + 1 < fuel)%nat ->
  exists x, token_starts fuel (pre ++ segs_text l ++ tr) (length pre) = Ok (seg_starts (length pre) l ++ [x]).
Proof.
  intros F W N. induction F as [|s l (FW & FT) F IH]; intros pre fuel SP L.
  - cbn [segs_text flat_map app seg_starts]. destruct fuel as [|[|fuel]]; cbn [length] in L; try lia.
    destruct (white_none tr W N [] 0%nat (tr ++ []) 0%nat (or_introl eq_refl)) as (h & E).
    assert (ET : next_token (pre ++ tr) (length pre) = shift3 (length pre) (h, length tr, None)).
    { replace (length pre) with (length pre + 0)%nat at 1 by lia. rewrite next_token_app. f_equal. unfold next_token. cbn [skipn]. rewrite app_nil_r in E. exact E. }
    cbn [shift3] in ET. assert (LT : (length pre < length (pre ++ tr))%nat) by (rewrite app_length; destruct tr; [congruence|cbn [length]; lia]). exists (length pre + h)%nat. rewrite (starts_step _ _ _ _ _ _ LT ET). cbn [token_starts]. rewrite app_length, Nat.ltb_irrefl. reflexivity.
  - cbn [tl] in SP. destruct fuel as [|fuel]; [lia|]. cbn [length] in L.
    assert (ET : next_token (pre ++ segs_text (s :: l) ++ tr) (length pre) = (length (pre ++ sg_w s), (length (pre ++ sg_w s) + length (sg_v s))%nat, Some (sg_k s))).
    { unfold segs_text. cbn [flat_map]. unfold seg_text at 1. rewrite <- !app_assoc. apply next_token_white; auto. right. apply segs_sep; auto. }
    assert (NV := tokk_nonempty _ _ FT).
    assert (LT : (length pre < length (pre ++ segs_text (s :: l) ++ tr))%nat).
    { unfold segs_text. cbn [flat_map]. unfold seg_text at 1. rewrite !app_length. destruct (sg_v s); [congruence|cbn [length]; lia]. }
    rewrite (starts_step fuel _ _ _ _ _ LT ET).
    destruct (IH (pre ++ seg_text s) fuel) as (x & EX).
    + destruct l as [|s2 l]; [constructor|]. inversion SP; auto.
    + lia.
    + exists x. unfold segs_text in *. cbn [flat_map seg_starts]. rewrite <- app_assoc in EX |- *. rewrite <- app_length, <- app_assoc. change (sg_w s ++ sg_v s) with (seg_text s). rewrite EX. cbn [bind]. rewrite !app_length. reflexivity.
Qed.
Lemma seg_starts_app a : forall i b, seg_starts i (a ++ b) = seg_starts i a ++ seg_starts (i + length (segs_text a)) b.
Proof.
  induction a as [|s a IH]; intros i b; cbn [app seg_starts segs_text flat_map]; [cbn; now rewrite Nat.add_0_r|]. rewrite IH. rewrite !app_length. unfold segs_text. rewrite Nat.add_assoc. reflexivity.
Qed.
Lemma seg_starts_length l : forall i, length (seg_starts i l) = length l.
Proof. induction l as [|s l IH]; intro i; cbn; auto. Qed.

(* ---------- arrays of integers between white space ---------- *)
Definition hdr (zs : list Z) : bytes := flat_map (fun z => dec z ++ [32]) zs.
Lemma items_ints p t j1 zs : forall w fuel pre rest, Forall white w ->
  t = pre ++ w ++ hdr zs ++ [10; 93] ++ rest ->
  j1 = (length pre + length w + length (hdr zs) + 2)%nat -> (length zs + 2 <= fuel)%nat ->
  items_loop p false t j1 fuel (length pre) = Ok (map PInt zs).
Proof.
  induction zs as [|z zs IH]; intros w fuel pre rest W E J L.
  - cbn [hdr flat_map app length map] in *. destruct fuel as [|[|fuel]]; try lia. rewrite items_S. replace (Nat.ltb _ _) with true by (symmetry; apply Nat.ltb_lt; lia).
    destruct (white_none (w ++ [10]) ltac:(apply Forall_app; split; [auto|repeat constructor; unfold white; lia]) ltac:(destruct w; discriminate) (93 :: rest) 0%nat (w ++ 10 :: 93 :: rest) 0%nat (or_intror (ex_intro _ rest eq_refl))) as (h & EN).
    assert (ET : next_token t (length pre) = shift3 (length pre) (h, length (w ++ [10]), None)).
    { subst t. replace (length pre) with (length pre + 0)%nat at 1 by lia. rewrite next_token_app. f_equal. unfold next_token. cbn [skipn]. rewrite <- app_assoc in EN. exact EN. }
    rewrite ET. cbn [shift3]. rewrite items_S. rewrite app_length. cbn [length]. replace (Nat.ltb _ _) with false by (symmetry; apply Nat.ltb_ge; lia). reflexivity.
  - change (hdr (z :: zs)) with ((dec z ++ [32]) ++ hdr zs) in *. cbn [map length] in *. destruct fuel as [|fuel]; [lia|]. rewrite items_S. rewrite !app_length in J. cbn [length] in J. replace (Nat.ltb _ _) with true by (symmetry; apply Nat.ltb_lt; lia).
    assert (ET : next_token t (length pre) = (length (pre ++ w), (length (pre ++ w) + length (dec z))%nat, Some TInteger)).
    { subst t. rewrite <- !app_assoc. apply next_token_white; [exact W|apply dec_tok|]. right. apply sep_cons. unfold white; lia. }
    rewrite ET. cbn [andb].
    assert (ES : sub t (length (pre ++ w)) (length (pre ++ w) + length (dec z)) = dec z).
    { subst t. rewrite <- app_length. replace (pre ++ w ++ ((dec z ++ [32]) ++ hdr zs) ++ [10; 93] ++ rest) with ((pre ++ w) ++ dec z ++ ([32] ++ hdr zs ++ [10; 93] ++ rest)) by (rewrite <- !app_assoc; reflexivity).
      unfold sub. rewrite skipn_app, skipn_all2, Nat.sub_diag by lia. cbn [skipn app]. rewrite !app_length. replace (length pre + length w + length (dec z) - (length pre + length w))%nat with (length (dec z) + 0)%nat by lia. rewrite firstn_app_2. cbn. now rewrite app_nil_r. }
    rewrite ES. unfold dedicated_type at 1. rewrite py_int_dec. cbn [of_opt bind].
    replace (length (pre ++ w) + length (dec z))%nat with (length (pre ++ w ++ dec z)) by (rewrite !app_length; lia).
    rewrite (IH [32] fuel (pre ++ w ++ dec z) rest).
    + reflexivity.
    + apply Forall_cons; [unfold white; lia|apply Forall_nil].
    + subst t. rewrite <- !app_assoc. reflexivity.
    + subst j1. rewrite !app_length. cbn [length]. lia.
    + lia.
Qed.
Lemma replace_ref_ints zs : replace_ref (map PInt zs) = Ok (map PInt zs).
Proof.
  induction zs as [|z zs IH]; [reflexivity|]. cbn [map replace_ref]. destruct zs as [|z1 [|z2 zs]]; [reflexivity|reflexivity|]. cbn [map is_R] in *. rewrite IH. reflexivity.
Qed.
Lemma parse_ints zs : parse_obj ([91] ++ (hdr zs ++ [10]) ++ [93]) 0 = Ok (PList (map PInt zs)).
Proof.
  set (hd := hdr zs). unfold parse_obj. rewrite pobj_S.
  assert (NA : narr (hd ++ [10])).
  { apply narr_plain. apply Forall_app. split; [|repeat constructor; lia]. subst hd. unfold hdr. apply Forall_forall. intros c I. apply in_flat_map in I as (z & _ & I). apply in_app_iff in I as [I|[I|[]]]; [|lia].
    assert (D : Forall (fun c => c <> 40 /\ c <> 41 /\ c <> 91 /\ c <> 93) (dec z)) by (apply not_sep_plain, dec_notsep). rewrite Forall_forall in D. now apply D. }
  assert (T : next_token ([91] ++ (hd ++ [10]) ++ [93]) 0 = (0%nat, length ([91] ++ (hd ++ [10]) ++ [93]), Some TArray)).
  { unfold next_token. cbn [skipn app]. assert (E := tok1any_array (hd ++ [10]) NA [] 0%nat (91 :: (hd ++ [10]) ++ [93]) 0%nat). rewrite app_nil_r in E. exact E. }
  rewrite T. rewrite (items_ints _ _ _ zs [] _ [91] []).
  - cbn [bind]. rewrite replace_ref_ints. reflexivity.
  - constructor.
  - subst hd. rewrite <- !app_assoc. reflexivity.
  - subst hd. rewrite !app_length. cbn [length]. lia.
  - subst hd. rewrite !app_length. cbn [length]. enough ((length zs <= length (hdr zs))%nat) by lia. clear. induction zs as [|z zs IH]; [auto|]. change (hdr (z :: zs)) with ((dec z ++ [32]) ++ hdr zs). rewrite !app_length. cbn [length]. lia.
Qed.

(* ---------- the content of an object stream ---------- *)
Definition txt (o : obj) : bytes := match serialize o with Ok v => v | _ => [] end.
Definition kd (o : obj) : tok := match kind_of o with Some k => k | None => TInteger end.
Lemma txt_ok o : wf_top o -> serialize o = Ok (txt o) /\ tokk (txt o) (kd o) /\ kd o <> TStream.
Proof.
  intro W. destruct (top_direct _ o W) as (v & k & E & K & T & _). unfold txt, kd. rewrite E, K. split; [reflexivity|]. split; [exact T|].
  intros ->. destruct o as [|b|z|m e|s|s|g n|l|d|d s e]; cbn in K; try discriminate; [destruct b; discriminate|].
  destruct s as [|a s]; [discriminate|]. destruct a as [|q|q]; try discriminate. repeat (destruct q as [q|q|]; try discriminate).
Qed.
Definition body (l : list (Z * obj)) : bytes := flat_map (fun p => txt (snd p) ++ [10]) l.
Fixpoint index_line (off : Z) (l : list (Z * obj)) : list Z :=
  match l with [] => [] | (n, o) :: r => n :: off :: index_line (off + blen (txt o) + 1) r end.
Fixpoint offs (off : Z) (l : list (Z * obj)) : list Z :=
  match l with [] => [] | (n, o) :: r => off :: offs (off + blen (txt o) + 1) r end.
Fixpoint hsegs (w : bytes) (zs : list Z) : list seg := match zs with [] => [] | z :: r => mk_seg w (dec z) TInteger :: hsegs [32] r end.
Fixpoint osegs (w : bytes) (l : list (Z * obj)) : list seg := match l with [] => [] | (n, o) :: r => mk_seg w (txt o) (kd o) :: osegs [10] r end.
Lemma hsegs_text zs : forall w, zs <> [] -> segs_text (hsegs w zs) ++ [32] = w ++ hdr zs.
Proof.
  induction zs as [|z zs IH]; intros w N; [congruence|]. change (hdr (z :: zs)) with ((dec z ++ [32]) ++ hdr zs). cbn [hsegs segs_text flat_map]. unfold seg_text at 1. cbn [sg_w sg_v].
  destruct zs as [|z2 zs]; [cbn; rewrite !app_nil_r, <- app_assoc; reflexivity|]. fold (segs_text (hsegs [32] (z2 :: zs))). rewrite <- app_assoc, IH by discriminate. rewrite <- !app_assoc. reflexivity.
Qed.
Lemma osegs_text l : forall w, l <> [] -> segs_text (osegs w l) ++ [10] = w ++ body l.
Proof.
  induction l as [|[n o] l IH]; intros w N; [congruence|]. unfold body. cbn [flat_map snd]. fold (body l). cbn [osegs segs_text flat_map]. unfold seg_text at 1. cbn [sg_w sg_v].
  destruct l as [|p l]; [cbn; rewrite !app_nil_r, <- app_assoc; reflexivity|]. fold (segs_text (osegs [10] (p :: l))). rewrite <- app_assoc, IH by discriminate. rewrite <- !app_assoc. reflexivity.
Qed.
Definition seg_val (s : seg) (o : obj) : Prop := wf_top o /\ sg_v s = txt o /\ sg_k s = kd o.
Lemma hsegs_val zs : forall w, Forall2 seg_val (hsegs w zs) (map PInt zs).
Proof. induction zs as [|z zs IH]; intro w; constructor; auto. split; [constructor; [constructor|discriminate]|]. split; reflexivity. Qed.
Lemma osegs_val l : forall w, Forall (fun p => wf_top (snd p)) l -> Forall2 seg_val (osegs w l) (map snd l).
Proof. induction l as [|[n o] l IH]; intros w F; [constructor|]. inversion F; subst. constructor; auto. repeat split; auto. Qed.
Lemma hsegs_spaced zs : forall w, w <> [] -> spaced (hsegs w zs).
Proof. induction zs as [|z zs IH]; intros w N; constructor; auto. apply IH. discriminate. Qed.
Lemma osegs_spaced l : forall w, w <> [] -> spaced (osegs w l).
Proof. induction l as [|[n o] l IH]; intros w N; constructor; auto. apply IH. discriminate. Qed.
Lemma hsegs_white zs : forall w, Forall white w -> Forall (fun s => Forall white (sg_w s)) (hsegs w zs).
Proof. induction zs as [|z zs IH]; intros w N; constructor; auto. apply IH. apply Forall_cons; [unfold white; lia|apply Forall_nil]. Qed.
Lemma osegs_white l : forall w, Forall white w -> Forall (fun s => Forall white (sg_w s)) (osegs w l).
Proof. induction l as [|[n o] l IH]; intros w N; constructor; auto. apply IH. apply Forall_cons; [unfold white; lia|apply Forall_nil]. Qed.
Lemma segs_ok_of l os : Forall2 seg_val l os -> Forall (fun s => Forall white (sg_w s)) l -> Forall seg_ok l.
Proof. induction 1 as [|s o l os (W & E & K) _ IH]; intro F; inversion F; subst; constructor; auto. split; auto. rewrite E, K. now apply txt_ok. Qed.
Lemma osegs_starts l : forall i w, map Z.of_nat (seg_starts i (osegs w l)) = offs (Z.of_nat i + blen w) l.
Proof.
  induction l as [|[n o] l IH]; intros i w; [reflexivity|]. cbn [osegs seg_starts map offs]. f_equal; [unfold blen; cbn [sg_w]; lia|]. rewrite IH. f_equal. unfold seg_text. cbn [sg_w sg_v]. rewrite app_length. unfold blen. cbn [length]. lia.
Qed.
Lemma offs_shift c l : forall a, offs (a + c) l = map (fun z => z + c) (offs a l).
Proof. induction l as [|[n o] l IH]; intro a; [reflexivity|]. cbn [offs map]. f_equal. rewrite <- IH. f_equal. lia. Qed.
Lemma odd_index c l : forall a, odd_positions false c (map PInt (index_line a l)) = Ok (map (fun z => z + c) (offs a l)).
Proof. induction l as [|[n o] l IH]; intro a; [reflexivity|]. cbn [index_line map odd_positions negb offs]. rewrite IH. reflexivity. Qed.
Lemma index_line_length l : forall a, length (index_line a l) = (2 * length l)%nat.
Proof. induction l as [|[n o] l IH]; intro a; [reflexivity|]. cbn [index_line length]. rewrite IH. lia. Qed.
Lemma index_line_nth l x n o : nth_error l x = Some (n, o) -> forall a, nth_error (index_line a l) (2 * x) = Some n.
Proof.
  revert x. induction l as [|[m q] l IH]; intros [|x] E a; cbn [nth_error] in E; try discriminate; [inversion E; reflexivity|]. replace (2 * S x)%nat with (S (S (2 * x))) by lia. cbn [index_line nth_error]. now apply IH.
Qed.
Lemma hsegs_length zs : forall w, length (hsegs w zs) = length zs.
Proof. induction zs; intro w; cbn; auto. Qed.
Lemma osegs_length l : forall w, length (osegs w l) = length l.
Proof. induction l as [|[n o] l IH]; intro w; cbn; auto. Qed.

(* one token of a sequence, parsed *)
Lemma parse_seg segs os tr k o : Forall2 seg_val segs os -> Forall (fun s => Forall white (sg_w s)) segs -> spaced (tl segs) -> Forall white tr -> tr <> [] ->
  nth_error os k = Some o -> exists p, nth_error (seg_starts 0 segs) k = Some p /\ parse_obj (segs_text segs ++ tr) p = Ok (rv o).
Proof.
  intros F2 FW SP WT NT E. assert (OKS := segs_ok_of _ _ F2 FW). apply nth_error_split in E as (oa & ob & -> & LA). apply Forall2_app_inv_r in F2 as (a & sb & Fa & Fb & ->). inversion Fb as [|s ? b ? (W & EV & EK) Fb']; subst.
  assert (LA' : length a = length oa) by (clear -Fa; induction Fa; cbn; auto).
  exists (length (segs_text a ++ sg_w s)). split.
  - rewrite seg_starts_app. rewrite nth_error_app2 by (rewrite seg_starts_length; lia). rewrite seg_starts_length, LA', Nat.sub_diag. cbn [seg_starts nth_error]. rewrite app_length. reflexivity.
  - assert (SPB : spaced b). { destruct a as [|s0 a]; cbn [app tl] in SP; [exact SP|]. apply Forall_app in SP as (_ & SP). inversion SP; auto. }
    apply Forall_app in OKS as (_ & OKS). inversion OKS as [|? ? _ OKB]; subst.
    replace (segs_text (a ++ s :: b) ++ tr) with ((segs_text a ++ sg_w s) ++ txt o ++ (segs_text b ++ tr)).
    2:{ rewrite <- EV. unfold segs_text, seg_text. rewrite flat_map_app. cbn [flat_map]. rewrite <- !app_assoc. reflexivity. }
    eapply (top_parse _ o); [exact W|apply txt_ok; auto|right; apply segs_sep; auto|].
    destruct b as [|s2 b].
    + cbn [segs_text flat_map app]. unfold next_token. cbn [skipn]. destruct (white_none tr WT NT [] 0%nat tr 0%nat (or_introl eq_refl)) as (h & EN). rewrite app_nil_r in EN. rewrite EN. discriminate.
    + inversion OKB as [|? ? (W2 & T2) OKB2]; subst. inversion Fb' as [|? o2 ? ? (WO & EV2 & EK2) _]; subst. inversion SPB as [|? ? _ SPB2]; subst.
      assert (EN := next_token_white [] (sg_w s2) (sg_v s2) (sg_k s2) (segs_text b ++ tr) W2 T2 (or_intror (segs_sep b tr SPB2 OKB2 NT WT))). cbn [app length] in EN.
      unfold segs_text. cbn [flat_map]. unfold seg_text at 1. rewrite <- !app_assoc. fold (segs_text b). rewrite EN. cbn [snd]. rewrite EK2. intro C. inversion C. now apply (proj2 (proj2 (txt_ok o2 WO))).
Qed.

Definition embedded (env : Z) (p : Z * obj) (e : embobj) : Prop :=
  e_num e = PInt (fst p) /\ e_obj e = rv (snd p) /\ e_env e = env /\ e_theo e = Some (e_pos e).
Lemma skipn_nth {A} (l : list A) x y : nth_error l x = Some y -> skipn x l = y :: skipn (S x) l.
Proof. revert x. induction l as [|a l IH]; intros [|x] E; try discriminate; [cbn in E; inversion E; reflexivity|]. cbn [skipn]. apply IH. exact E. Qed.
Lemma emb_loop_ok data tokens ypos env (l : list (Z * obj)) :
  (forall x n o, nth_error l x = Some (n, o) -> exists p q, nth_error tokens (2 * length l + x) = Some p /\ nth_error tokens (2 * x) = Some q /\
     parse_obj data q = Ok (PInt n) /\ parse_obj data p = Ok (rv o) /\ existsb (Z.eqb (Z.of_nat p)) ypos = true) ->
  forall cnt x, (x + cnt = length l)%nat -> exists r, emb_loop data tokens ypos (length l) env x cnt = Ok r /\ Forall2 (embedded env) (skipn x l) r.
Proof.
  intro H. induction cnt as [|cnt IH]; intros x L.
  - exists []. split; [reflexivity|]. rewrite skipn_all2 by lia. constructor.
  - destruct (nth_error l x) as [[n o]|] eqn:E; [|apply nth_error_None in E; lia]. destruct (H x n o E) as (p & q & E1 & E2 & P1 & P2 & EX).
    destruct (IH (S x) ltac:(lia)) as (r & ER & FR). cbn [emb_loop]. rewrite E1, E2. cbn [of_opt bind]. rewrite P1, P2. cbn [bind]. rewrite ER, EX. cbn [bind].
    eexists. split; [reflexivity|]. rewrite (skipn_nth _ _ _ E). constructor; [|exact FR]. repeat split.
Qed.

Theorem object_stream_read d l env : l <> [] -> Forall (fun p => wf_top (snd p)) l ->
  let hd := hdr (index_line 0 l) ++ [10] in
  dget K_First d = Some (PInt (blen hd)) -> (exists z, dget K_N d = Some (PInt z)) ->
  exists r, parse_object_stream d (Some (hd ++ body l)) env = Ok r /\ Forall2 (embedded env) l r.
Proof.
  intros NL F hd EF (z & EN). unfold parse_object_stream. rewrite EF, EN. cbn [of_opt bind py_int_obj].
  set (zs := index_line 0 l). assert (NZ : zs <> []) by (destruct l as [|[? ?] ?]; [congruence|discriminate]).
  set (segs := hsegs [] zs ++ osegs [32; 10] l).
  assert (ED : hd ++ body l = segs_text segs ++ [10]).
  { unfold segs, hd. fold zs. unfold segs_text. rewrite flat_map_app. fold (segs_text (hsegs [] zs)) (segs_text (osegs [32; 10] l)). rewrite <- (app_assoc (segs_text (hsegs [] zs))), osegs_text by auto.
    change ([32; 10] ++ body l) with ([32] ++ [10] ++ body l). rewrite (app_assoc (segs_text (hsegs [] zs))), hsegs_text by auto. rewrite <- app_assoc. reflexivity. }
  assert (W10 : Forall white [10]) by (apply Forall_cons; [unfold white; lia|apply Forall_nil]).
  assert (W3210 : Forall white [32; 10]) by (apply Forall_cons; [unfold white; lia|exact W10]).
  assert (F2 : Forall2 seg_val segs (map PInt zs ++ map snd l)) by (apply Forall2_app; [apply hsegs_val|now apply osegs_val]).
  assert (FW : Forall (fun s => Forall white (sg_w s)) segs) by (apply Forall_app; split; [apply hsegs_white; constructor|now apply osegs_white]).
  assert (SP : spaced (tl segs)).
  { unfold segs. destruct zs as [|z0 zs0]; [congruence|]. cbn [hsegs app tl]. apply Forall_app. split; [now apply hsegs_spaced|now apply osegs_spaced]. }
  assert (LS : length segs = (3 * length l)%nat) by (unfold segs; rewrite app_length, hsegs_length, osegs_length; unfold zs; rewrite index_line_length; lia).
  rewrite ED. destruct (tokens_of_segs segs [10] (segs_ok_of _ _ F2 FW) W10 ltac:(discriminate) [] (S (length (segs_text segs ++ [10]))) SP) as (x0 & ET).
  { rewrite app_length. cbn [length]. enough ((length segs <= length (segs_text segs))%nat) by lia. assert (OKS := segs_ok_of _ _ F2 FW). clear -OKS. induction OKS as [|s segs (_ & T) _ IH]; [auto|]. unfold segs_text in *. cbn [flat_map length]. unfold seg_text at 1. rewrite !app_length.
    apply tokk_nonempty in T. destruct (sg_v s); [congruence|cbn [length]; lia]. }
  cbn [app length] in ET. rewrite ET. cbn [bind]. set (tokens := seg_starts 0 segs ++ [x0]) in *.
  assert (LT : length tokens = (3 * length l + 1)%nat) by (unfold tokens; rewrite app_length, seg_starts_length, LS; reflexivity).
  replace (length tokens / 3)%nat with (length l) by (rewrite LT; apply Nat.div_unique with (r := 1%nat); lia).
  destruct (nth_error tokens (2 * length l)) as [t0|] eqn:E0; [|apply nth_error_None in E0; lia]. cbn [of_opt bind].
  replace (slice_to (segs_text segs ++ [10]) (blen hd)) with hd.
  2:{ rewrite <- ED. unfold slice_to, blen. replace (0 <=? Z.of_nat (length hd)) with true by lia. rewrite Nat2Z.id, firstn_app, firstn_all2, Nat.sub_diag by lia. cbn. now rewrite app_nil_r. }
  unfold hd. rewrite parse_ints. cbn [bind iter_obj]. rewrite odd_index. cbn [bind]. fold zs. fold hd.
  apply (emb_loop_ok _ _ _ env l) with (x := 0%nat); [|lia]. intros x n o E.
  destruct (parse_seg segs _ [10] (2 * length l + x) o F2 FW SP W10 ltac:(discriminate)) as (p & EP & PP).
  { rewrite nth_error_app2 by (rewrite map_length; unfold zs; rewrite index_line_length; lia). rewrite map_length. unfold zs. rewrite index_line_length. replace (2 * length l + x - 2 * length l)%nat with x by lia. rewrite (map_nth_error snd _ _ E). reflexivity. }
  assert (LX : (x < length l)%nat) by (apply nth_error_Some; congruence).
  destruct (parse_seg segs _ [10] (2 * x) (PInt n) F2 FW SP W10 ltac:(discriminate)) as (q & EQ & PQ).
  { rewrite nth_error_app1 by (rewrite map_length; unfold zs; rewrite index_line_length; lia). apply map_nth_error. now apply (index_line_nth l x n o). }
  exists p, q. unfold tokens. rewrite !nth_error_app1 by (rewrite seg_starts_length, LS; lia). split; [exact EP|]. split; [exact EQ|]. split; [exact PQ|]. split; [exact PP|].
  apply existsb_exists. exists (Z.of_nat p). split; [|apply Z.eqb_refl].
  unfold segs in EP. rewrite seg_starts_app, nth_error_app2 in EP by (rewrite seg_starts_length, hsegs_length; unfold zs; rewrite index_line_length; lia).
  rewrite seg_starts_length, hsegs_length in EP. unfold zs in EP at 2. rewrite index_line_length in EP. apply (map_nth_error Z.of_nat) in EP. rewrite osegs_starts in EP. apply nth_error_In in EP.
  rewrite <- offs_shift. replace (0 + blen (hdr zs ++ [10])) with (Z.of_nat (0 + length (segs_text (hsegs [] zs))) + blen [32; 10]); [exact EP|].
  assert (EH := f_equal (@length Z) (hsegs_text zs [] NZ)). rewrite app_length in EH. cbn [app length] in EH. unfold blen. rewrite app_length. cbn [length]. fold zs. lia.
Qed.

(* ---------- writing ---------- *)
Lemma body_app a b : body (a ++ b) = body a ++ body b.
Proof. unfold body. apply flat_map_app. Qed.
Lemma pack_more l : forall d s e fl, Forall (fun p => wf_top (snd p)) l -> dget K_FirstLine d = Some (PList fl) ->
  exists e', pack l (PStream d (Some s) e) = Ok (PStream (dset K_FirstLine (PList (fl ++ map PInt (index_line (blen s) l))) d) (Some (s ++ body l)) e').
Proof.
  induction l as [|[n o] l IH]; intros d s e fl F G.
  - exists e. cbn [pack index_line map]. rewrite app_nil_r. unfold body. cbn [flat_map]. rewrite app_nil_r. now rewrite dset_same.
  - inversion F as [|? ? W F']; subst. cbn [snd] in W. destruct (txt_ok o W) as (ES & _). cbn [pack]. unfold append_to_stream_fragment. rewrite ES, G. cbn [bind].
    destruct (IH (dset K_FirstLine (PList (fl ++ [PInt n; PInt (blen s)])) d) (s ++ txt o ++ [10]) None (fl ++ [PInt n; PInt (blen s)]) F') as (e' & E); [apply dget_dset_eq|].
    exists e'. etransitivity; [exact E|]. rewrite dset_dset.
    assert (A1 : (fl ++ [PInt n; PInt (blen s)]) ++ map PInt (index_line (blen (s ++ txt o ++ [10])) l) = fl ++ map PInt (index_line (blen s) ((n, o) :: l))).
    { rewrite <- app_assoc. cbn [index_line map app]. replace (blen (s ++ txt o ++ [10])) with (blen s + blen (txt o) + 1) by (unfold blen; rewrite !app_length; cbn [length]; lia). reflexivity. }
    assert (A2 : (s ++ txt o ++ [10]) ++ body l = s ++ body ((n, o) :: l)) by (unfold body; cbn [flat_map snd]; rewrite <- !app_assoc; reflexivity).
    rewrite A1, A2. reflexivity.
Qed.
Lemma pack_ok l d e : l <> [] -> Forall (fun p => wf_top (snd p)) l -> dget K_FirstLine d = None ->
  exists e', pack l (PStream d (Some []) e) = Ok (PStream (dset K_FirstLine (PList (map PInt (index_line 0 l))) d) (Some (body l)) e').
Proof.
  intros N F G. destruct l as [|[n o] l]; [congruence|]. inversion F as [|? ? W F']; subst. cbn [snd] in W. destruct (txt_ok o W) as (ES & _).
  cbn [pack]. unfold append_to_stream_fragment. rewrite ES, G. cbn [bind app].
  destruct (pack_more l (dset K_FirstLine (PList [PInt n; PInt (blen [])]) d) (txt o ++ [10]) None [PInt n; PInt (blen [])] F') as (e' & E); [apply dget_dset_eq|].
  exists e'. etransitivity; [exact E|]. rewrite dset_dset.
  assert (A1 : [PInt n; PInt (blen [])] ++ map PInt (index_line (blen (txt o ++ [10])) l) = map PInt (index_line 0 ((n, o) :: l))).
  { cbn [index_line map app]. replace (blen (txt o ++ [10])) with (0 + blen (txt o) + 1) by (unfold blen; rewrite !app_length; cbn [length]; lia). reflexivity. }
  assert (A2 : (txt o ++ [10]) ++ body l = body ((n, o) :: l)) by reflexivity.
  rewrite A1, A2. reflexivity.
Qed.
Lemma dget_ddel_neq k k' d : k <> k' -> dget k (ddel k' d) = dget k d.
Proof.
  intro N. induction d as [|[j x] d IH]; [reflexivity|]. unfold ddel in *. cbn [filter fst dget]. destruct (beqb k' j) eqn:E; cbn [negb].
  - apply beqb_eq in E. subst j. assert (beqb k k' = false) as -> by (destruct (beqb k k') eqn:E; auto; apply beqb_eq in E; congruence). auto.
  - cbn [dget]. destruct (beqb k j); auto.
Qed.
Theorem pack_finalize l d e : l <> [] -> Forall (fun p => wf_top (snd p)) l ->
  dget K_FirstLine d = None -> dget K_First d = None -> dget K_N d = None ->
  exists packed, pack l (PStream d (Some []) e) = Ok packed /\
    (dget K_Filter d = None -> exists fin, finalize_stream packed = Ok fin) /\
    forall fin, finalize_stream packed = Ok fin -> exists d' data enc,
      fin = PStream d' (Some data) (Some enc) /\ data = (hdr (index_line 0 l) ++ [10]) ++ body l /\
      dget K_First d' = Some (PInt (blen (hdr (index_line 0 l) ++ [10]))) /\ dget K_N d' = Some (PInt (Z.of_nat (length l))) /\
      (forall k, k <> K_First -> k <> K_N -> k <> K_FirstLine -> k <> K_Length -> dget k d' = dget k d) /\
      encode_stream data d = Ok enc.
Proof.
  intros N F G1 G2 G3. destruct (pack_ok l d e N F G1) as (e' & E). rewrite E. eexists. split; [reflexivity|].
  set (d1 := dset K_FirstLine _ d). set (hd := hdr (index_line 0 l) ++ [10]).
  set (d2 := ddel K_FirstLine (dset K_N (PInt (Z.of_nat (length (index_line 0 l)) / 2)) (dset K_First (PInt (blen hd)) d1))).
  assert (FE : finalize_stream (PStream d1 (Some (body l)) e') = let* (e, _) := forge_stream (dset K_Length (PInt (-1)) d2) (hd ++ body l) in Ok e).
  { unfold finalize_stream. rewrite !dhas_dget. unfold d1 at 1 2. rewrite !dget_dset_neq by discriminate. rewrite G2, G3. cbn [negb andb].
    unfold d1 at 1. rewrite dget_dset_eq. cbn [of_opt bind]. rewrite int_list_ints. cbn [bind]. fold (hdr (index_line 0 l)). fold hd. fold d2. reflexivity. }
  assert (EK : forall k, k <> K_First -> k <> K_N -> k <> K_FirstLine -> k <> K_Length -> dget k (dset K_Length (PInt (-1)) d2) = dget k d).
  { intros k A1 A2 A3 A4. rewrite dget_dset_neq by auto. unfold d2. rewrite dget_ddel_neq, !dget_dset_neq by auto. unfold d1. now rewrite dget_dset_neq by auto. }
  assert (EE : encode_stream (hd ++ body l) (dset K_Length (PInt (-1)) d2) = encode_stream (hd ++ body l) d).
  { unfold encode_stream. rewrite EK by discriminate. reflexivity. }
  rewrite FE. unfold forge_stream. rewrite EE. split.
  - intro NF. unfold encode_stream. rewrite NF. cbn [bind]. eexists. reflexivity.
  - intros fin EF. destruct (encode_stream (hd ++ body l) d) as [enc| |] eqn:EN; try discriminate. cbn [bind] in EF. rewrite dget_dset_eq in EF. inversion EF; subst fin.
    eexists _, _, enc. split; [reflexivity|]. split; [reflexivity|]. rewrite dset_dset. split; [|split; [|split; [|exact EN]]].
    + rewrite dget_dset_neq by discriminate. unfold d2. rewrite dget_ddel_neq by discriminate. rewrite dget_dset_neq by discriminate. apply dget_dset_eq.
    + rewrite dget_dset_neq by discriminate. unfold d2. rewrite dget_ddel_neq by discriminate. rewrite dget_dset_eq. do 2 f_equal. rewrite index_line_length. lia.
    + intros k A1 A2 A3 A4. rewrite <- (EK k A1 A2 A3 A4). rewrite !dget_dset_neq by auto. reflexivity.
Qed.

Lemma embedded_unpacked env l r : Forall (fun p => wf_top (snd p)) l -> Forall2 (embedded env) l r -> Forall2 (unpacked env) l r.
Proof.
  intros F H. revert F. induction H as [|p e l r (A1 & A2 & A3 & A4) _ IH]; intro F; inversion F; subst; constructor; auto.
  repeat split; auto. rewrite A2. destruct H1 as [o W _|s _]; [now apply wfv_peq|]. cbn. constructor.
Qed.
Theorem object_stream_roundtrip l d e env : l <> [] -> Forall (fun p => wf_top (snd p)) l ->
  dget K_FirstLine d = None -> dget K_First d = None -> dget K_N d = None ->
  exists packed, pack l (PStream d (Some []) e) = Ok packed /\
    (dget K_Filter d = None -> exists fin, finalize_stream packed = Ok fin) /\
    forall fin, finalize_stream packed = Ok fin -> exists d' data enc, fin = PStream d' (Some data) (Some enc) /\
      encode_stream data d = Ok enc /\
      dget K_N d' = Some (PInt (Z.of_nat (length l))) /\
      (exists r, parse_object_stream d' (Some data) env = Ok r /\ Forall2 (unpacked env) l r) /\
      (storable fin -> exists v, serialize fin = Ok v /\ forall pre tail, exists d'' r,
         parse_obj (pre ++ v ++ tail) (length pre) = Ok (PStream d'' (Some data) (Some enc)) /\
         parse_object_stream d'' (Some data) env = Ok r /\ Forall2 (unpacked env) l r).
Proof.
  intros N F G1 G2 G3. destruct (pack_finalize l d e N F G1 G2 G3) as (packed & EP & FO & FF). exists packed. split; [exact EP|]. split; [exact FO|].
  intros fin EF. destruct (FF fin EF) as (d' & data & enc & -> & -> & E1 & E2 & _ & EN). exists d', ((hdr (index_line 0 l) ++ [10]) ++ body l), enc.
  split; [reflexivity|]. split; [exact EN|]. split; [exact E2|].
  assert (R : forall q, dget K_First q = Some (PInt (blen (hdr (index_line 0 l) ++ [10]))) -> (exists z, dget K_N q = Some (PInt z)) ->
    exists r, parse_object_stream q (Some ((hdr (index_line 0 l) ++ [10]) ++ body l)) env = Ok r /\ Forall2 (unpacked env) l r).
  { intros q Q1 Q2. destruct (object_stream_read q l env N F Q1 Q2) as (r & ER & FR). exists r. split; [exact ER|]. now apply embedded_unpacked. }
  split; [apply R; eauto|]. intro ST. inversion ST as [o WT|d0 s0 e0 W NE O L NF D]; subst; [inversion WT; inversion H|].
  destruct (stream_roundtrip d' (Some ((hdr (index_line 0 l) ++ [10]) ++ body l)) enc _ W NE O L NF D) as (v & d'' & ES & PQ & PP).
  exists v. split; [exact ES|]. intros pre tail. exists d''.
  inversion PQ as [| | | | | | | |? ? Q1 Q2|]; subst.
  assert (V : forall k z, dget k d' = Some (PInt z) -> dget k d'' = Some (PInt z)).
  { intros k z E. destruct (dget k d'') as [x|] eqn:EX; [|apply Q1 in EX; congruence]. specialize (Q2 k _ _ E EX). inversion Q2. reflexivity. }
  destruct (R d'') as (r & ER & FR); eauto.
Qed.
End WithZlib.
