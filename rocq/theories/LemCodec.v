(** Properties of the codec methods of every class, by induction on classes. *)
From Coq Require Import ZArith String List Bool Lia.
From Coq Require Import ZifyBool ZifyNat.
From Verif Require Import Base SpecSSZ ModelSSZ SpecObj LemBase LemBits LemTy LemSer LemDes.
Import ListNotations.
Open Scope Z_scope.
Ltac Zify.zify_post_hook ::= Z.div_mod_to_equations.

Notation slices b := (Forall2 (fun (r : Z * Z) s => slice b (fst r) (snd r) = Ok s)).

(** ** Layout of an encoding *)
Definition fits (s : Z) (e : part) : Prop :=
  fst e = (s =? 0) /\ (s <> 0 -> zlen (snd e) = s).

Lemma zlen_vr_cons f s r : zlen (vr ((f, s) :: r)) = (if f : bool then zlen s else 0) + zlen (vr r).
Proof. rewrite vr_cons, zlen_app. now destruct f. Qed.

Lemma ranges_of_series sizes es : Forall2 fits sizes es -> Forall (fun s => 0 <= s) sizes ->
  forall pre vmid lo O b F,
  O = zlen pre + fixed_len es + zlen vmid ->
  b = pre ++ fx es O ++ vmid ++ vr es ->
  (forall es1 es2 v s, es = es1 ++ (true, v) :: es2 -> s = O + zlen (vr es1) -> s < 2 ^ 32) ->
  lo <= O -> (lo = 0 -> O = F) ->
  exists rs, ranges b F sizes (zlen pre) lo O rs /\ slices b rs (map snd es).
Proof.
  induction 1 as [|s [f d] sizes es [Hf Hd] Hfit IH]; intros Hpos pre vmid lo O b F HO Hb Hlt Hlo H0.
  - exists []. split; [|constructor]. cbn [fx] in Hb. change (vr []) with (@nil Z) in Hb.
    replace O with (zlen b); [constructor|].
    subst b. autorewrite with zlen. change (fixed_len []) with 0 in HO. lia.
  - cbn [fst snd] in *. inversion Hpos as [|? ? Hs Hpos']; subst x l.
    rewrite fixed_len_cons in HO. pose proof (zlen_nonneg pre). pose proof (zlen_nonneg vmid).
    pose proof (fixed_len_nonneg es).
    destruct (Z.eqb_spec s 0) as [->|Hs0]; subst f.
    + cbn [fx] in Hb. rewrite vr_cons in Hb.
      destruct (IH Hpos' (pre ++ le_bytes 4 O) (vmid ++ d) O (O + zlen d) b F) as (rs & Hr & Hsl).
      * autorewrite with zlen. lia.
      * subst b. rewrite <- !app_assoc. reflexivity.
      * intros es1 es2 v q Ees Eq. apply (Hlt ((true, d) :: es1) es2 v).
        { now rewrite Ees. }
        { rewrite zlen_vr_cons. lia. }
      * pose proof (zlen_nonneg d). lia.
      * lia.
      * assert (HO32 : O < 2 ^ 32).
        { apply (Hlt [] es d O eq_refl). change (zlen (vr [])) with 0. lia. }
        assert (Hw : slice b (zlen pre) (zlen pre + 4) = Ok (le_bytes 4 O)).
        { subst b. rewrite <- app_assoc. apply slice_app3; autorewrite with zlen; lia. }
        assert (Hv : le_val (le_bytes 4 O) = O).
        { rewrite le_val_bytes, Z.mod_small; auto. change (256 ^ Z.of_nat 4) with (2 ^ 32). lia. }
        exists ((O, O + zlen d) :: rs). split.
        -- rewrite <- Hv at 1 2. apply r_var; rewrite ?Hv; auto.
           ++ subst b. autorewrite with zlen. rewrite zlen_fx.
              pose proof (zlen_nonneg d). pose proof (zlen_nonneg (vr es)). lia.
           ++ autorewrite with zlen in Hr. exact Hr.
        -- cbn [map snd]. constructor; auto. cbn [fst snd]. subst b.
           set (X := fx es (O + zlen d)).
           replace (pre ++ (le_bytes 4 O ++ X) ++ vmid ++ d ++ vr es)
             with ((pre ++ le_bytes 4 O ++ X ++ vmid) ++ d ++ vr es) by now rewrite <- !app_assoc.
           apply slice_app3; autorewrite with zlen; unfold X; rewrite zlen_fx; lia.
    + cbn [fx] in Hb. rewrite vr_cons in Hb. cbn [app] in Hb. specialize (Hd Hs0).
      destruct (IH Hpos' (pre ++ d) vmid lo O b F) as (rs & Hr & Hsl); auto.
      * autorewrite with zlen. lia.
      * subst b. now rewrite <- !app_assoc.
      * intros es1 es2 v q Ees Eq. apply (Hlt ((false, d) :: es1) es2 v).
        { now rewrite Ees. }
        { rewrite zlen_vr_cons. lia. }
      * autorewrite with zlen in Hr.
        exists ((zlen pre, zlen pre + s) :: rs). split.
        -- apply r_fix; auto.
           ++ subst b. autorewrite with zlen. rewrite zlen_fx. pose proof (zlen_nonneg (vr es)). lia.
           ++ now rewrite Hd in Hr.
        -- cbn [map snd]. constructor; auto. cbn [fst snd]. subst b.
           rewrite <- !app_assoc. apply slice_app3; lia.
Qed.

Lemma series_ranges sizes es b :
  Forall2 fits sizes es -> Forall (fun s => 0 <= s) sizes ->
  b = ssz_series es -> zlen b < 2 ^ 32 ->
  exists hi rs, ranges b (fixed_len es) sizes 0 0 hi rs /\ slices b rs (map snd es).
Proof.
  intros Hfit Hpos Hb Hlt. rewrite ssz_series_fx in Hb.
  destruct (ranges_of_series sizes es Hfit Hpos [] [] 0 (fixed_len es) b (fixed_len es)) as (rs & Hr & Hs).
  - change (zlen (@nil Z)) with 0. lia.
  - exact Hb.
  - intros es1 es2 v s Ees Es. rewrite Hb in Hlt. rewrite zlen_app, zlen_fx in Hlt.
    assert (zlen (vr es1) <= zlen (vr es)).
    { rewrite Ees. unfold vr, variable_parts. rewrite map_app, concat_app, zlen_app.
      match goal with |- _ <= _ + zlen ?l => pose proof (zlen_nonneg l) end. lia. }
    lia.
  - apply fixed_len_nonneg.
  - auto.
  - exists (fixed_len es), rs. auto.
Qed.

Lemma ranges_bounds b F sizes it lo hi rs : bytes_ok b -> ranges b F sizes it lo hi rs ->
  Forall (fun s => 0 <= s) sizes -> 0 <= it -> lo <= zlen b -> lo <= hi <= zlen b.
Proof.
  intros Hb. induction 1; intros Hp Hit Hlo.
  - lia.
  - inversion Hp; subst. apply IHranges; auto; lia.
  - lia.
Qed.

(** The bytes of the fixed part and of the variable part, from the ranges. *)
Lemma ranges_series b F sizes it lo hi rs : bytes_ok b -> ranges b F sizes it lo hi rs ->
  Forall (fun s => 0 <= s) sizes -> 0 <= it <= zlen b -> forall es,
  Forall2 (fun s (e : part) => fst e = (s =? 0)) sizes es -> slices b rs (map snd es) ->
  (0 <= hi -> slice b it (it + fixed_len es) = Ok (fx es hi)) /\
  (0 <= hi -> slice b hi (zlen b) = Ok (vr es)).
Proof.
  intros Hb. induction 1; intros Hp Hit es Hes Hsl.
  - inversion Hes; subst. change (fixed_len []) with 0. cbn [fx vr variable_parts map concat].
    split; intros _.
    + rewrite slice_ok by lia. f_equal. now replace (it + 0 - it) with 0 by lia.
    + rewrite slice_ok by (pose proof (zlen_nonneg b); lia). f_equal.
      now rewrite Z.sub_diag.
  - inversion Hp; subst. inversion Hes as [|? [f d] ? es' Hf Hes']; subst.
    cbn [map snd fst] in Hf, Hsl. inversion Hsl as [|? ? ? ? Hd Hsl']; subst. cbn [fst snd] in Hd.
    replace (s =? 0) with false by lia.
    destruct (IHranges ltac:(auto) ltac:(lia) es' Hes' Hsl') as [H2 H3].
    rewrite fixed_len_cons, vr_cons. cbn [fx app].
    pose proof (slice_inv _ _ _ _ Hd) as (? & ? & _ & Hl).
    split; auto. intros Hh. specialize (H2 Hh).
    rewrite Hl. replace (it + (it + s - it + fixed_len es')) with (it + s + fixed_len es') by lia.
    eapply slice_concat; eauto.
  - inversion Hp; subst. inversion Hes as [|? [f d] ? es' Hf Hes']; subst.
    cbn [map snd fst] in Hf, Hsl. inversion Hsl as [|? ? ? ? Hd Hsl']; subst. cbn [fst snd] in Hd.
    change (0 =? 0) with true.
    pose proof (slice_inv _ _ _ _ H) as (? & ? & _ & Hlw).
    destruct (IHranges ltac:(auto) ltac:(lia) es' Hes' Hsl') as [H9 H10].
    pose proof (slice_inv _ _ _ _ Hd) as (? & ? & _ & Hl).
    specialize (H9 ltac:(lia)). specialize (H10 ltac:(lia)).
    rewrite fixed_len_cons, vr_cons. cbn [fx]. split; intros _.
    + replace (it + (4 + fixed_len es')) with (it + 4 + fixed_len es') by lia.
      replace (le_val w + zlen d) with hi by lia.
      eapply slice_concat; eauto. rewrite H. f_equal.
      rewrite <- (le_bytes_val w) at 1.
      * f_equal. unfold zlen in Hlw. lia.
      * eapply slice_bytes_ok; eauto.
    + eapply slice_concat; eauto.
Qed.

Lemma ranges_hi b F sizes it hi rs : ranges b F sizes it 0 hi rs ->
  hi = if existsb (fun s => s =? 0) sizes then F else zlen b.
Proof.
  assert (G : forall lo, ranges b F sizes it lo hi rs -> lo = 0 ->
    hi = if existsb (fun s => s =? 0) sizes then F else zlen b).
  { induction 1; intros Hlo; cbn [existsb]; auto.
    replace (s =? 0) with false by lia. cbn [orb]. auto. }
  intros Hr. now apply (G 0).
Qed.

Lemma ranges_fixed_part b F sizes it lo hi rs : ranges b F sizes it lo hi rs ->
  Forall (fun s => 0 <= s) sizes -> it <= zlen b ->
  it + sumZ (map (fun s => if s =? 0 then 4 else s) sizes) <= zlen b.
Proof.
  induction 1; intros Hp Hit; cbn [map sumZ fold_right].
  - lia.
  - inversion Hp; subst. replace (s =? 0) with false by lia.
    specialize (IHranges ltac:(auto) ltac:(lia)). unfold sumZ in *. lia.
  - inversion Hp; subst. apply slice_inv in H.
    specialize (IHranges ltac:(auto) ltac:(lia)). unfold sumZ in *. cbn [Z.eqb]. lia.
Qed.

(** ** What every class satisfies *)
Definition res_ok (safe : bool) (W : val -> Prop) (o : outcome (bool * val)) : Prop :=
  match o with Ok (_, v) => W v | UB => safe = false | Throw => False end.

Record good (safe : bool) (p : vtable) (W : val -> Prop) : Prop := {
  g_size : 0 <= vt_size p;
  g_def : W (vt_default p);
  g_len : forall v, W v -> vt_size p <> 0 -> zlen (vt_ser p v) = vt_size p;
  g_ok : forall v, W v -> bytes_ok (vt_ser p v);
  g_rt : forall v old, W v -> W old -> zlen (vt_ser p v) < 2 ^ 32 ->
           vt_des p old (vt_ser p v) = Ok (true, v);
  g_hist : forall o1 o2 b v, W o1 -> W o2 -> bytes_ok b ->
           vt_des p o1 b = Ok (true, v) -> vt_des p o2 b = Ok (true, v);
  g_res : forall old b, W old -> bytes_ok b -> res_ok safe W (vt_des p old b)
}.

Definition canonical (p : vtable) (W : val -> Prop) : Prop :=
  forall old b v, W old -> bytes_ok b -> vt_size p = 0 \/ zlen b = vt_size p ->
    vt_des p old b = Ok (true, v) -> vt_ser p v = b.

Lemma good_weaken p W : good true p W -> good false p W.
Proof.
  intros [H1 H2 H3 H4 H5 H6 H7]. constructor; auto. intros old b Ho Hb.
  specialize (H7 old b Ho Hb). unfold res_ok in *. destruct (vt_des p old b) as [[? ?]| |]; auto.
Qed.
Lemma good_pres s p W old b r v : good s p W -> W old -> bytes_ok b ->
  vt_des p old b = Ok (r, v) -> W v.
Proof. intros G Ho Hb E. pose proof (g_res _ _ _ G old b Ho Hb) as R. now rewrite E in R. Qed.

(** *** Leaves *)
Lemma good_bytes s n : 0 < n -> good s (vt (TBytes n)) (wt (TBytes n)).
Proof.
  intros Hn. constructor; cbn [vt vt_size vt_default vt_ser vt_des].
  - lia.
  - split; [rewrite zlen_repeat; lia|apply bytes_ok_repeat0].
  - intros [] ; cbn; tauto.
  - intros []; cbn; tauto.
  - intros [] []; cbn; try tauto. intros [<- ?] _ _. unfold bytes_deserialize. now rewrite Z.eqb_refl.
  - intros o1 o2 b v; destruct o1, o2; cbn; try tauto. intros _ _ _. unfold bytes_deserialize.
    destruct (zlen b =? n); cbn [negb]; auto. discriminate.
  - intros o1 b; destruct o1; cbn; try tauto. intros Hl Hb. unfold bytes_deserialize.
    destruct (Z.eqb_spec (zlen b) n); cbn; auto.
Qed.
Lemma canonical_bytes n : canonical (vt (TBytes n)) (wt (TBytes n)).
Proof.
  intros old b v _ _ _. cbn. unfold bytes_deserialize. destruct (_ =? _); cbn [negb]; [|discriminate].
  now intros [= <-].
Qed.

Lemma slot_des_val old b : slot_deserialize old b
  = if zlen b =? 8 then Ok (true, VNum (le_val b)) else Ok (false, old).
Proof.
  unfold slot_deserialize. destruct (Z.eqb_spec (zlen b) 8) as [E|E]; cbn [negb]; auto.
  rewrite <- E, slice_full. reflexivity.
Qed.
Lemma good_slot s : good s (vt TSlot) (wt TSlot).
Proof.
  constructor; cbn [vt vt_size vt_default vt_ser vt_des]; try lia.
  - cbn. lia.
  - intros []; cbn; try tauto; reflexivity.
  - intros []; cbn -[le_bytes]; try tauto. intros _. apply le_bytes_ok.
  - intros [] []; try (cbn; tauto). intros Hv _ _. cbn [wt] in Hv. cbn [slot_serialize].
    rewrite slot_des_val, zlen_le_bytes, le_val_bytes. change (Z.of_nat 8) with 8. change (8 =? 8) with true. cbv iota.
    do 3 f_equal. apply Z.mod_small. change (256 ^ 8) with (2 ^ 64). lia.
  - intros o1 o2 b v _ _ _. rewrite !slot_des_val. destruct (_ =? _); auto. discriminate.
  - intros old b Ho Hb. rewrite slot_des_val. destruct (Z.eqb_spec (zlen b) 8) as [E|E]; cbn [res_ok]; auto.
    cbn [wt]. pose proof (le_val_bound b Hb) as B. rewrite E in B. exact B.
Qed.
Lemma canonical_slot : canonical (vt TSlot) (wt TSlot).
Proof.
  intros old b v _ Hb _. cbn [vt vt_des vt_ser]. rewrite slot_des_val.
  destruct (Z.eqb_spec (zlen b) 8) as [E|E]; [|discriminate]. intros [= <-].
  cbn [slot_serialize]. rewrite <- (le_bytes_val b) at 2 by auto. f_equal. unfold zlen in E. lia.
Qed.

Lemma boolean_des_val old b : boolean_deserialize old b
  = match b with
    | [x] => if x >? 1 then Ok (false, old) else Ok (true, VBool (negb (x =? 0)))
    | _ => Ok (false, old)
    end.
Proof.
  unfold boolean_deserialize. destruct b as [|x [|y b]]; auto.
  - change (zlen [x]) with 1. cbn [Z.eqb negb]. change 1 with (zlen [x]) at 1. rewrite slice_full.
    cbn [bind le_val]. replace (x + 256 * 0) with x by lia. reflexivity.
  - replace (zlen (x :: y :: b) =? 1) with false; auto.
    rewrite !zlen_cons. pose proof (zlen_nonneg b). lia.
Qed.
Lemma good_boolean s : good s (vt TBoolean) (wt TBoolean).
Proof.
  constructor; cbn [vt vt_size vt_default vt_ser vt_des]; try lia.
  - exact I.
  - intros []; cbn; try tauto; reflexivity.
  - intros []; cbn; try tauto. intros _. constructor; [|constructor]. unfold byte_ok. destruct b; cbn; lia.
  - intros [| |x| |] old; try (cbn; tauto). intros _ _ _. cbn [boolean_serialize].
    rewrite boolean_des_val. now destruct x.
  - intros o1 o2 b v _ _ _. rewrite !boolean_des_val. destruct b as [|x [|y b]]; try discriminate.
    destruct (_ >? _); auto. discriminate.
  - intros old b Ho Hb. rewrite boolean_des_val. destruct b as [|x [|y b]]; cbn [res_ok]; auto.
    destruct (_ >? _); cbn; auto.
Qed.
Lemma canonical_boolean : canonical (vt TBoolean) (wt TBoolean).
Proof.
  intros old b v _ Hb _. cbn [vt vt_des vt_ser]. rewrite boolean_des_val.
  destruct b as [|x [|y b]]; try discriminate.
  destruct (Z.gtb_spec x 1); [discriminate|]. intros [= <-].
  inversion Hb; subst. unfold byte_ok in *. cbn [boolean_serialize].
  destruct (Z.eqb_spec x 0); cbn [negb b2z]; f_equal; lia.
Qed.

Lemma bitvector_des_val n arr b : 0 < n -> zlen arr = n -> bytes_ok b ->
  bitvector_deserialize n (VBits arr) b
  = if zlen b =? (n + 7) / 8 then Ok (true, VBits (bits_of (Z.to_nat n) (le_val b)))
    else Ok (false, VBits arr).
Proof.
  intros Hn Ha Hb. destruct (Z.eqb_spec (zlen b) ((n + 7) / 8)) as [E|E].
  - apply bitvector_deserialize_val; auto; lia.
  - unfold bitvector_deserialize, BITS_PER_BYTE. replace (n + 8 - 1) with (n + 7) by lia.
    now replace (zlen b =? (n + 7) / 8) with false by lia.
Qed.
Lemma good_bitvector s n : 0 < n -> good s (vt (TBitvector n)) (wt (TBitvector n)).
Proof.
  intros Hn. constructor; cbn [vt vt_size vt_default vt_ser vt_des]; unfold BITS_PER_BYTE.
  - lia.
  - cbn [wt]. rewrite zlen_repeat. lia.
  - intros []; cbn [wt]; try tauto. intros Hl _. rewrite bitvector_serialize_le by lia.
    rewrite zlen_le_bytes. lia.
  - intros []; cbn [wt]; try tauto. intros Hl. rewrite bitvector_serialize_le by lia. apply le_bytes_ok.
  - intros [] []; cbn [wt]; try tauto. intros. apply bitvector_roundtrip; auto; lia.
  - intros o1 o2 b v; destruct o1, o2; cbn [wt]; try tauto. intros H1 H2 Hb. rewrite !bitvector_des_val by auto.
    destruct (_ =? _); auto. discriminate.
  - intros o1 b; destruct o1; cbn [wt]; try tauto. intros Hl Hb. rewrite !bitvector_des_val by auto.
    destruct (_ =? _); cbn [res_ok wt]; auto. unfold zlen. rewrite bits_of_length. lia.
Qed.
Lemma canonical_bitvector n : 0 < n -> n mod 8 = 0 ->
  canonical (vt (TBitvector n)) (wt (TBitvector n)).
Proof.
  intros Hn Hm [| |xb|arr|] b v; cbn [wt]; try tauto. intros Ha Hb _. cbn [vt vt_des vt_ser].
  rewrite bitvector_des_val by auto. destruct (Z.eqb_spec (zlen b) ((n + 7) / 8)) as [E|E]; [|discriminate].
  intros [= <-]. rewrite bitvector_serialize_le; [|unfold zlen; rewrite bits_of_length; lia|lia].
  rewrite bits_val_of, <- E. unfold zlen at 1. rewrite Nat2Z.id.
  rewrite Z.mod_small; [now apply le_bytes_val|].
  replace (2 ^ Z.of_nat (Z.to_nat n)) with (256 ^ zlen b).
  - now apply le_val_bound.
  - rewrite pow2_8. f_equal. lia.
Qed.

Lemma good_bitlist n : good false (vt (TBitlist n)) (wt (TBitlist n)).
Proof.
  constructor; cbn [vt vt_size vt_default vt_ser vt_des]; try lia.
  - exact I.
  - intros []; cbn [wt]; try tauto. intros _. rewrite bitlist_serialize_le. apply le_bytes_ok.
  - intros [] old; cbn [wt]; try tauto. intros. apply bitlist_roundtrip.
  - intros o1 o2 b v _ _ Hb. unfold bitlist_deserialize. auto.
  - intros old b _ Hb. unfold bitlist_deserialize. destruct (_ =? _); [reflexivity|].
    cbv zeta. destruct (_ >? _); cbn; auto.
Qed.
Lemma canonical_bitlist n : canonical (vt (TBitlist n)) (wt (TBitlist n)).
Proof.
  intros old b v _ Hb _ E. cbn [vt vt_des vt_ser] in *.
  destruct v as [| | |l|].
  4: eapply bitlist_canonical; eauto.
  all: exfalso; unfold bitlist_deserialize in E; destruct (_ =? _); [discriminate|];
       cbv zeta in E; destruct (_ >? _); discriminate.
Qed.

(** *** Decoding several parts *)
Lemma decode_all_length b ps : forall olds rs vs, decode_all b ps olds rs vs ->
  length olds = length ps /\ length rs = length ps /\ length vs = length ps.
Proof.
  induction ps; destruct olds, rs, vs; cbn; try tauto.
  intros [_ H]. apply IHps in H. lia.
Qed.
Lemma decodes_bytes_ok b p o r v : bytes_ok b -> decodes b p o r v ->
  exists s, slice b (fst r) (snd r) = Ok s /\ bytes_ok s /\ vt_des p o s = Ok (true, v).
Proof. intros Hb (s & Hs & Hd). exists s. repeat split; auto. eapply slice_bytes_ok; eauto. Qed.

Notation gooda safe := (Forall2 (good safe)).
Notation holds := (Forall2 (fun (W : val -> Prop) v => W v)).

Lemma decode_all_hist s b ps Ws : bytes_ok b -> gooda s ps Ws -> forall o1 o2 rs vs,
  holds Ws o1 -> holds Ws o2 -> decode_all b ps o1 rs vs -> decode_all b ps o2 rs vs.
Proof.
  intros Hb. induction 1 as [|p W ps Ws G _ IH]; intros o1 o2 rs vs H1 H2 Hd.
  - inversion H1; inversion H2; subst. exact Hd.
  - inversion H1; inversion H2; subst. cbn [decode_all] in *.
    destruct rs, vs; try tauto. destruct Hd as [Hd Hds]. split; [|eapply IH; eauto].
    destruct Hd as (sl & Hs & E). exists sl. split; auto.
    eapply g_hist; [exact G| | | |exact E]; auto. eapply slice_bytes_ok; eauto.
Qed.
Lemma decode_all_pres s b ps Ws : bytes_ok b -> gooda s ps Ws -> forall o rs vs,
  holds Ws o -> decode_all b ps o rs vs -> holds Ws vs.
Proof.
  intros Hb. induction 1 as [|p W ps Ws G _ IH]; intros o rs vs H1 Hd.
  - inversion H1; subst. destruct rs, vs; cbn in Hd; try tauto; constructor.
  - inversion H1; subst. cbn [decode_all] in *. destruct rs, vs; try tauto.
    destruct Hd as [Hd Hds]. constructor; eauto.
    destruct Hd as (sl & Hs & E). eapply good_pres; [exact G| | |exact E]; auto.
    eapply slice_bytes_ok; eauto.
Qed.
Definition sers (ps : list vtable) (vs : list val) : list (list Z) :=
  map (fun pv : vtable * val => vt_ser (fst pv) (snd pv)) (combine ps vs).
Lemma decode_all_rt s b ps Ws : zlen b < 2 ^ 32 -> gooda s ps Ws -> forall o rs vs,
  holds Ws o -> holds Ws vs -> slices b rs (sers ps vs) -> decode_all b ps o rs vs.
Proof.
  intros Hlt. induction 1 as [|p W ps Ws G _ IH]; intros o rs vs H1 H2 Hs.
  - inversion H1; inversion H2; subst. inversion Hs; subst. exact I.
  - inversion H1; inversion H2; subst. cbn [sers combine map] in Hs. inversion Hs; subst.
    cbn [decode_all fst snd] in *. split; [|apply IH; auto].
    exists (vt_ser p y0). split; auto. apply (g_rt _ _ _ G); auto.
    match goal with Hx : slice _ _ _ = Ok (vt_ser p y0) |- _ => apply slice_inv in Hx end. lia.
Qed.
Lemma decode_all_canon b ps Ws : bytes_ok b -> Forall2 canonical ps Ws -> forall o rs vs,
  holds Ws o -> decode_all b ps o rs vs ->
  Forall2 (fun p (r : Z * Z) => vt_size p = 0 \/ snd r - fst r = vt_size p) ps rs ->
  slices b rs (sers ps vs).
Proof.
  intros Hb. induction 1 as [|p W ps Ws C _ IH]; intros o rs vs H1 Hd Hr.
  - inversion H1; subst. destruct rs, vs; cbn in Hd; try tauto; constructor.
  - inversion H1; subst. cbn [decode_all] in *. destruct rs, vs; try tauto.
    inversion Hr; subst. destruct Hd as [Hd Hds]. unfold sers. cbn [combine map fst snd].
    constructor; eauto.
    destruct Hd as (sl & Hs & E). rewrite Hs. f_equal. symmetry.
    eapply C; [| | |exact E]; auto.
    + eapply slice_bytes_ok; eauto.
    + apply slice_inv in Hs. lia.
Qed.

Lemma ranges_sizes b F ps it lo hi rs : ranges b F (map vt_size ps) it lo hi rs ->
  Forall2 (fun p (r : Z * Z) => vt_size p = 0 \/ snd r - fst r = vt_size p) ps rs.
Proof.
  revert it lo hi rs. induction ps as [|p ps IH]; intros it lo hi rs Hr; inversion Hr; subst; constructor; eauto.
  right. cbn [fst snd]. lia.
Qed.

(** *** Containers *)
Section Class.
Variables (safe : bool) (ci : class_info) (ps : list vtable) (Ws : list (val -> Prop)).
Hypothesis Hgood : gooda safe ps Ws.
Hypothesis Hne : ps <> [].
Hypothesis Hser : ci_ser ci = seq 0 (length ps).
Hypothesis Hdes : ci_des ci = seq 0 (length ps).
Hypothesis Hsize : ci_size ci = if existsb (fun p => vt_size p =? 0) ps then 0 else vt_fixed ps.
Hypothesis Hsmall : vt_fixed ps < 2 ^ 32.

Definition class_vt : vtable :=
  {| vt_size := ci_size ci; vt_default := VSeq (map vt_default ps);
     vt_ser := class_serialize ci ps; vt_des := class_deserialize ci ps |}.
Definition class_W (v : val) : Prop := match v with VSeq l => holds Ws l | _ => False end.

Lemma sizes_pos : Forall (fun p => 0 <= vt_size p) ps.
Proof.
  generalize Hgood as Hg; clear; intros Hg. induction Hg; constructor; auto. eapply g_size; eauto.
Qed.
Lemma vt_fixed_pos : 0 < vt_fixed ps.
Proof.
  pose proof sizes_pos as Hsz. clear - Hsz Hne.
  destruct Hsz as [|p ps Hp Hsz]; [easy|]. unfold vt_fixed. cbn [map sumZ fold_right].
  assert (0 <= sumZ (map (fun p => if vt_size p =? 0 then 4 else vt_size p) ps)).
  { clear - Hsz. induction Hsz; cbn [map sumZ fold_right]; [lia|].
    unfold sumZ in *. destruct (Z.eqb_spec (vt_size x) 0); lia. }
  unfold sumZ in *. destruct (Z.eqb_spec (vt_size p) 0); lia.
Qed.

Lemma pick_ser_combine obj : length obj = length ps ->
  pick_ser ps obj (seq 0 (length ps)) = combine ps obj.
Proof.
  unfold pick_ser.
  assert (G : forall pre pre' l o, length pre = length pre' -> length o = length l ->
    map (fun k => (nth k (pre ++ l) null_vtable, nth k (pre' ++ o) (VSeq [])))
        (seq (length pre) (length l)) = combine l o).
  { intros pre pre' l. revert pre pre'. induction l as [|p l IH]; intros pre pre' o Hp Ho;
      destruct o as [|v o]; try discriminate; auto.
    cbn [length seq map combine]. f_equal.
    - rewrite app_nth2, Nat.sub_diag by lia. rewrite Hp, app_nth2, Nat.sub_diag by lia. reflexivity.
    - specialize (IH (pre ++ [p]) (pre' ++ [v]) o). rewrite <- !app_assoc in IH. cbn [app] in IH.
      rewrite !app_length in IH. cbn [length] in IH.
      replace (length pre + 1)%nat with (S (length pre)) in IH by lia. apply IH; auto. lia. }
  intros Ho. exact (G [] [] ps obj eq_refl Ho).
Qed.

Definition class_es (obj : list val) : list part := es_of (combine ps obj).

Lemma holds_length obj : holds Ws obj -> length obj = length ps.
Proof.
  intros Hh. apply Forall2_len in Hh. apply Forall2_len in Hgood. lia.
Qed.
Lemma combine_fits obj : holds Ws obj ->
  Forall2 fits (map vt_size ps) (class_es obj) /\
  Forall (fun pv : vtable * val => vt_size (fst pv) <> 0 ->
            zlen (vt_ser (fst pv) (snd pv)) = vt_size (fst pv)) (combine ps obj).
Proof.
  unfold class_es. generalize Hgood as Hg; clear; intros Hg. revert obj. induction Hg as [|p W ps Ws G _ IH]; intros obj Hh.
  - inversion Hh; subst. split; constructor.
  - inversion Hh as [|? v ? obj']; subst. destruct (IH obj' ltac:(auto)) as [I1 I2].
    cbn [combine es_of map fst snd]. split; constructor; auto.
    + split; cbn [fst snd]; auto. intros. eapply g_len; eauto.
    + cbn [fst snd]. intros. eapply g_len; eauto.
Qed.
Lemma class_ser_series obj : holds Ws obj ->
  class_serialize ci ps (VSeq obj) = ssz_series (class_es obj) /\
  fixed_len (class_es obj) = vt_fixed ps.
Proof.
  intros Hh. cbn [class_serialize]. rewrite Hser, pick_ser_combine by now apply holds_length.
  destruct (serialize_series (combine ps obj)) as [E1 E2]; [now apply combine_fits|].
  split; auto. unfold class_es. rewrite <- E1. f_equal.
  apply holds_length in Hh. clear - Hh. revert obj Hh.
  induction ps; intros [|v obj] Hl; try discriminate; auto. cbn [combine map fst]. f_equal. auto.
Qed.
Lemma class_des_true b obj v : bytes_ok b -> length obj = length ps ->
  (class_deserialize ci ps (VSeq obj) b = Ok (true, v) <->
   exists obj' hi rs, v = VSeq obj' /\
     ranges b (vt_fixed ps) (map vt_size ps) 0 0 hi rs /\ decode_all b ps obj rs obj').
Proof.
  intros Hb Hl. cbn [class_deserialize]. rewrite Hdes, pick_des_number.
  pose proof (fun o => deserialize_true b ps obj o Hb sizes_pos Hne Hsmall Hl) as D.
  split.
  - intros E. apply bind_ok in E as ([r o] & E1 & [= -> <-]). apply D in E1.
    destruct E1 as (hi & rs & Hr & Ha). eauto 6.
  - intros (obj' & hi & rs & -> & Hr & Ha).
    destruct (D obj') as [_ D2]. rewrite D2 by eauto. reflexivity.
Qed.
Lemma class_es_snd obj : map snd (class_es obj) = sers ps obj.
Proof. unfold class_es, es_of, sers. rewrite map_map. reflexivity. Qed.

(** No undefined behaviour in the loop itself, and the object stays well formed. *)
Definition at_ok (kp : nat * vtable) : Prop :=
  (fst kp < length Ws)%nat /\ good safe (snd kp) (nth (fst kp) Ws (fun _ => True)).
Definition loop_ok (o : outcome (bool * list val)) : Prop :=
  match o with Ok (_, obj) => holds Ws obj | UB => safe = false | Throw => False end.

Lemma holds_nth obj k d : holds Ws obj -> (k < length Ws)%nat -> nth k Ws (fun _ => True) (nth k obj d).
Proof.
  intros Hh. clear Hgood. revert k. induction Hh; intros [|k] Hk; cbn in *; try lia; auto. apply IHHh. lia.
Qed.
Lemma holds_upd obj k v : holds Ws obj -> nth k Ws (fun _ => True) v -> holds Ws (upd obj k v).
Proof.
  intros Hh. clear Hgood. revert k. induction Hh; intros [|k] Hk; cbn [upd nth] in *; constructor; auto.
Qed.
Lemma call_des_ok kp obj b i j : at_ok kp -> holds Ws obj -> bytes_ok b ->
  0 <= i <= j -> j <= zlen b -> loop_ok (call_des (snd kp) (fst kp) obj b i j).
Proof.
  intros [Hk G] Hh Hb Hi Hj. unfold call_des. destruct (slice b i j) as [s| |] eqn:E.
  2,3: rewrite slice_ok in E by lia; discriminate.
  cbn [bind].
  pose proof (g_res _ _ _ G (nth (fst kp) obj (vt_default (snd kp))) s) as R.
  specialize (R (holds_nth _ _ _ Hh Hk) ltac:(eapply slice_bytes_ok; eauto)).
  unfold res_ok in R. destruct (vt_des (snd kp) _ s) as [[r v]| |]; cbn [bind loop_ok]; auto.
  now apply holds_upd.
Qed.
Lemma deserialize_loop_ok b F parts : bytes_ok b -> Forall at_ok parts ->
  F <> 0 ->
  forall it lo last obj, 0 <= it -> 0 <= lo <= zlen b ->
  match last with None => lo = 0 | Some kp => lo <> 0 /\ at_ok kp end ->
  holds Ws obj -> loop_ok (deserialize_loop b F parts it lo last obj).
Proof.
  intros Hb Hat HF. induction Hat as [|[k p] parts Hp Hat IH]; intros it lo last obj Hit Hlo Hlast Hh;
    cbn [deserialize_loop].
  - destruct last as [[kp pp]|].
    + destruct Hlast as [Hl0 Ha]. replace (lo =? 0) with false by lia.
      apply (call_des_ok (kp, pp)); auto; lia.
    + subst. cbn. auto.
  - assert (Hs : 0 <= vt_size p). { destruct Hp as [_ G]. eapply g_size; eauto. }
    destruct (Z.eqb_spec (vt_size p) 0) as [Hz|Hz]; cbn [negb]; unfold BYTES_PER_LENGTH_OFFSET.
    + destruct (Z.ltb_spec (zlen b - it) 4); [cbn; auto|].
      destruct (slice b it (it + 4)) as [w| |] eqn:Ew.
      2,3: rewrite slice_ok in Ew by lia; discriminate.
      cbn [bind]. pose proof (slice_nonneg_read _ _ _ Ew Hb) as Hw.
      destruct (Z.ltb_spec (zlen b) (le_val w)); [cbn; auto|].
      destruct (Z.eqb_spec lo 0) as [Hl0|Hl0]; cbn [negb].
      * destruct (Z.eqb_spec (le_val w) F); cbn [negb]; [|cbn; auto].
        apply IH; auto; try lia. split; auto; lia.
      * destruct (Z.ltb_spec (le_val w) lo); [cbn; auto|].
        destruct last as [[kp pp]|]; [|lia]. destruct Hlast as [_ Ha].
        pose proof (call_des_ok (kp, pp) obj b lo (le_val w) Ha Hh Hb ltac:(lia) ltac:(lia)) as C.
        cbn [fst snd] in C. destruct (call_des pp kp obj b lo (le_val w)) as [[r o]| |]; cbn [bind]; auto.
        destruct r; [|exact C]. apply IH; auto; try lia. split; auto; lia.
    + destruct (Z.ltb_spec (zlen b - it) (vt_size p)); [cbn; auto|].
      pose proof (call_des_ok (k, p) obj b it (it + vt_size p) Hp Hh Hb ltac:(lia) ltac:(lia)) as C.
      cbn [fst snd] in C. destruct (call_des p k obj b it _) as [[r o]| |]; cbn [bind]; auto.
      destruct r; [|exact C]. apply IH; auto; try lia.
Qed.
Lemma number_at_ok : Forall at_ok (number 0 ps).
Proof.
  assert (G : forall (pre : list (val -> Prop)) ps Ws, gooda safe ps Ws ->
    Forall (fun kp => (fst kp < length (pre ++ Ws))%nat /\
                      good safe (snd kp) (nth (fst kp) (pre ++ Ws) (fun _ => True)))
           (number (length pre) ps)).
  { clear. intros pre ps Ws Hg. revert pre. induction Hg as [|p W ps Ws G _ IH]; intros pre.
    - constructor.
    - rewrite number_cons. constructor.
      + cbn [fst snd]. rewrite app_length, app_nth2, Nat.sub_diag by lia. cbn [length nth]. split; auto. lia.
      + specialize (IH (pre ++ [W])). rewrite <- app_assoc in IH. cbn [app] in IH.
        replace (length (pre ++ [W])) with (S (length pre)) in IH
          by (rewrite app_length; cbn [length]; lia). exact IH. }
  exact (G [] ps Ws Hgood).
Qed.

Lemma fx_bytes_ok es : Forall (fun e : part => bytes_ok (snd e)) es -> forall o, bytes_ok (fx es o).
Proof.
  induction es as [|[f s] es IH]; intros He o; cbn [fx]; [apply Forall_nil|].
  inversion He; subst. destruct f; apply Forall_app; split; try apply IH; auto. apply le_bytes_ok.
Qed.
Lemma vr_bytes_ok es : Forall (fun e : part => bytes_ok (snd e)) es -> bytes_ok (vr es).
Proof.
  induction es as [|[f s] es IH]; intros He; [apply Forall_nil|].
  inversion He; subst. rewrite vr_cons. apply Forall_app; split; [|apply IH; auto].
  destruct f; [assumption|apply Forall_nil].
Qed.
Lemma class_es_bytes_ok obj : holds Ws obj -> Forall (fun e : part => bytes_ok (snd e)) (class_es obj).
Proof.
  unfold class_es, es_of. generalize Hgood as Hg; clear; intros Hg. revert obj.
  induction Hg as [|p W ps Ws G _ IH]; intros obj Hh; inversion Hh; subst; cbn; constructor; auto.
  - eapply g_ok; eauto.
Qed.

Lemma vr_novar es : existsb (fun e : part => fst e) es = false -> vr es = [].
Proof.
  induction es as [|[[] s] es IH]; cbn [existsb fst orb]; auto; try discriminate.
Qed.
Lemma class_es_var obj : length obj = length ps ->
  existsb (fun e : part => fst e) (class_es obj) = existsb (fun p => vt_size p =? 0) ps.
Proof.
  unfold class_es, es_of. revert obj. generalize ps as qs. clear. induction qs as [|p qs IH]; intros [|v obj] Hl; try discriminate; auto.
  cbn [combine map existsb fst snd]. f_equal. apply IH. now injection Hl.
Qed.

Lemma good_class : good safe class_vt class_W.
Proof.
  constructor; cbn [class_vt vt_size vt_default vt_ser vt_des].
  - rewrite Hsize. pose proof vt_fixed_pos. destruct (existsb _ _); lia.
  - cbn [class_W]. generalize Hgood as Hg; clear; intros Hg. induction Hg; cbn [map]; constructor; auto. eapply g_def; eauto.
  - intros [| | | |obj]; cbn [class_W]; try tauto. intros Hh Hs.
    destruct (class_ser_series obj Hh) as [-> Hf]. rewrite ssz_series_fx, zlen_app, zlen_fx, Hf.
    rewrite Hsize in *. pose proof (class_es_var obj (holds_length _ Hh)) as V.
    destruct (existsb (fun p => vt_size p =? 0) ps); [easy|]. rewrite vr_novar by auto.
    rewrite zlen_nil. lia.
  - intros [| | | |obj]; cbn [class_W]; try tauto. intros Hh.
    destruct (class_ser_series obj Hh) as [-> Hf]. rewrite ssz_series_fx. apply Forall_app.
    split; [apply fx_bytes_ok|apply vr_bytes_ok]; now apply class_es_bytes_ok.
  - intros [| | | |obj] [| | | |old]; cbn [class_W]; try tauto. intros Hh Ho Hlt.
    destruct (class_ser_series obj Hh) as [E Hf].
    assert (Hb : bytes_ok (class_serialize ci ps (VSeq obj))).
    { rewrite E, ssz_series_fx. apply Forall_app.
      split; [apply fx_bytes_ok|apply vr_bytes_ok]; now apply class_es_bytes_ok. }
    apply class_des_true; auto. { now apply holds_length. }
    destruct (series_ranges (map vt_size ps) (class_es obj) (class_serialize ci ps (VSeq obj)))
      as (hi & rs & Hr & Hs); auto.
    { now apply combine_fits. }
    { apply Forall_map. apply sizes_pos. }
    rewrite Hf in Hr. rewrite class_es_snd in Hs.
    exists obj, hi, rs. repeat split; auto. eapply decode_all_rt; eauto.
  - intros [| |xb| |o1] [| |xc| |o2] b v; cbn [class_W]; try tauto. intros H1 H2 Hb E.
    apply class_des_true in E; auto using holds_length.
    destruct E as (obj' & hi & rs & -> & Hr & Ha).
    apply class_des_true; auto using holds_length.
    exists obj', hi, rs. repeat split; auto. eapply decode_all_hist; [| |exact H1|exact H2|]; eauto.
  - intros [| |xb| |old] b; cbn [class_W]; try tauto. intros Ho Hb.
    cbn [class_deserialize]. rewrite Hdes, pick_des_number. unfold deserialize_.
    match goal with |- context [deserialize_loop b ?F _ 0 0 None old] =>
      pose proof (deserialize_loop_ok b F (number 0 ps) Hb number_at_ok) as L end.
    assert (HF : compute_fixed_length (map snd (number 0 ps)) <> 0).
    { assert (M : map snd (number 0 ps) = ps).
      { unfold number. generalize 0%nat. clear. induction ps; intros k; cbn; auto. f_equal. apply IHl. }
      rewrite M, compute_fixed_length_eq. pose proof vt_fixed_pos. unfold u32.
      rewrite Z.mod_small; lia. }
    specialize (L HF 0 0 None old ltac:(lia) ltac:(pose proof (zlen_nonneg b); lia) eq_refl Ho).
    unfold loop_ok in L. destruct (deserialize_loop _ _ _ _ _ _ _) as [[r o]| |]; cbn [bind res_ok]; auto.
Qed.

Lemma canonical_class : Forall2 canonical ps Ws -> canonical class_vt class_W.
Proof.
  intros Hc [| |xb| |old] b v; cbn [class_W class_vt vt_size vt_ser vt_des]; try tauto.
  intros Ho Hb Hsz E. apply class_des_true in E; auto using holds_length.
  destruct E as (obj & hi & rs & -> & Hr & Ha).
  assert (Hh : holds Ws obj) by (eapply decode_all_pres; eauto).
  destruct (class_ser_series obj Hh) as [-> Hf]. rewrite ssz_series_fx, Hf.
  assert (Hs : slices b rs (map snd (class_es obj))).
  { rewrite class_es_snd. eapply decode_all_canon; [exact Hb|exact Hc|exact Ho|exact Ha|]. eapply ranges_sizes; eauto. }
  pose proof (zlen_nonneg b) as Hz.
  assert (Hsp : Forall (fun s => 0 <= s) (map vt_size ps)) by (apply Forall_map; apply sizes_pos).
  destruct (ranges_series _ _ _ _ _ _ _ Hb Hr Hsp ltac:(lia) (class_es obj)) as [R1 R2]; auto.
  { destruct (combine_fits obj Hh) as [Hfit _]. clear - Hfit. induction Hfit; constructor; auto. apply H. }
  rewrite Hf in R1. cbn [Z.add] in R1.
  pose proof (ranges_hi _ _ _ _ _ _ Hr) as Hhi.
  pose proof (class_es_var obj (holds_length _ Hh)) as V.
  pose proof vt_fixed_pos as Hpos.
  assert (Ex : existsb (fun s => s =? 0) (map vt_size ps) = existsb (fun p => vt_size p =? 0) ps).
  { clear. induction ps; cbn; auto. now rewrite IHl. }
  rewrite Ex in Hhi. rewrite Hsize in Hsz.
  destruct (existsb (fun p => vt_size p =? 0) ps) eqn:EV.
  - subst hi. specialize (R1 ltac:(lia)). specialize (R2 ltac:(lia)).
    pose proof (slice_concat _ _ _ _ _ _ R1 R2) as C. rewrite slice_full in C. now injection C.
  - assert (zlen b = vt_fixed ps) by lia.
    subst hi. specialize (R1 ltac:(lia)). rewrite vr_novar, app_nil_r by auto.
    rewrite <- H, slice_full in R1. injection R1 as R1. rewrite H in R1. now symmetry.
Qed.

Lemma fx_novar es : Forall (fun e : part => fst e = false) es -> forall o o', fx es o = fx es o'.
Proof. induction 1 as [|[f s] es Hf _ IH]; intros o o'; cbn [fx]; auto. cbn [fst] in Hf. subst f. f_equal. apply IH. Qed.

(** A container without variable-size parts decodes the prefix of its size. *)
Lemma prefix_class : Forall2 canonical ps Ws -> existsb (fun p => vt_size p =? 0) ps = false ->
  forall old b v, class_W old -> bytes_ok b -> class_deserialize ci ps old b = Ok (true, v) ->
  slice b 0 (vt_fixed ps) = Ok (class_serialize ci ps v).
Proof.
  intros Hc EV [| |xb| |old] b v; cbn [class_W]; try tauto.
  intros Ho Hb E. apply class_des_true in E; auto using holds_length.
  destruct E as (obj & hi & rs & -> & Hr & Ha).
  assert (Hh : holds Ws obj) by (eapply decode_all_pres; eauto).
  destruct (class_ser_series obj Hh) as [-> Hf]. rewrite ssz_series_fx.
  assert (Hs : slices b rs (map snd (class_es obj))).
  { rewrite class_es_snd. eapply decode_all_canon; [exact Hb|exact Hc|exact Ho|exact Ha|]. eapply ranges_sizes; eauto. }
  pose proof (zlen_nonneg b) as Hz.
  assert (Hsp : Forall (fun s => 0 <= s) (map vt_size ps)) by (apply Forall_map; apply sizes_pos).
  destruct (ranges_series _ _ _ _ _ _ _ Hb Hr Hsp ltac:(lia) (class_es obj)) as [R1 _]; auto.
  { destruct (combine_fits obj Hh) as [Hfit _]. clear - Hfit. induction Hfit; constructor; auto. apply H. }
  pose proof (ranges_hi _ _ _ _ _ _ Hr) as Hhi.
  pose proof (class_es_var obj (holds_length _ Hh)) as V.
  assert (Ex : existsb (fun s => s =? 0) (map vt_size ps) = existsb (fun p => vt_size p =? 0) ps).
  { clear. induction ps; cbn; auto. now rewrite IHl. }
  rewrite Ex in Hhi. rewrite EV in *. subst hi. specialize (R1 ltac:(lia)).
  rewrite vr_novar, app_nil_r by auto. rewrite Hf in *. cbn [Z.add] in R1. rewrite R1. f_equal.
  apply fx_novar. clear - V. induction (class_es obj) as [|[f s] l IH]; constructor.
  - cbn [existsb fst] in V. apply orb_false_iff in V. tauto.
  - cbn [existsb fst] in V. apply orb_false_iff in V. tauto.
Qed.
End Class.
