(** Which values survive encoding and decoding: series whose offsets fit in 32 bits. *)
From Coq Require Import ZArith String List Bool Lia ZifyBool ZifyNat Sorting.Sorted.
From Verif Require Import Base SpecSSZ SpecWire SpecSize LemBase LemBits LemTy LemSer LemCodec LemMatch LemWire LemBind LemSize.
Import ListNotations.
Open Scope Z_scope.

Lemma zlen_bytes_at b i j : 0 <= i <= j -> j <= zlen b -> zlen (bytes_at b i j) = j - i.
Proof.
  unfold bytes_at, zlen. intros Hi Hj. rewrite firstn_length, skipn_length. lia.
Qed.
Lemma bytes_at_mid (p m r : list Z) i j : i = zlen p -> j = zlen p + zlen m -> bytes_at (p ++ m ++ r) i j = m.
Proof.
  intros -> ->. unfold bytes_at, zlen. rewrite Nat2Z.id.
  rewrite skipn_app, skipn_all, Nat.sub_diag. cbn [app skipn].
  replace (Z.to_nat _) with (length m) by lia. rewrite firstn_app, firstn_all, Nat.sub_diag. cbn [firstn]. apply app_nil_r.
Qed.
Lemma bytes_at_join b i j k : 0 <= i <= j -> j <= k -> bytes_at b i k = bytes_at b i j ++ bytes_at b j k.
Proof.
  intros Hi Hj. unfold bytes_at. replace (Z.to_nat (k - i)) with (Z.to_nat (j - i) + Z.to_nat (k - j))%nat by lia.
  rewrite firstn_add. f_equal. rewrite skipn_add. do 2 f_equal. lia.
Qed.
Lemma bytes_at_all b : bytes_at b 0 (zlen b) = b.
Proof. unfold bytes_at, zlen. cbn [Z.to_nat skipn]. rewrite Z.sub_0_r, Nat2Z.id. apply firstn_all. Qed.
Lemma bytes_at_empty b i : bytes_at b i i = [].
Proof. unfold bytes_at. now rewrite Z.sub_diag. Qed.

(** The offsets written for a series, starting at [o]. *)
Fixpoint toffs (es : list part) (o : Z) : list Z :=
  match es with
  | [] => []
  | (true, s) :: r => o :: toffs r (o + zlen s)
  | (false, _) :: r => toffs r o
  end.
Lemma hd_toffs es : forall o, hd (o + zlen (vr es)) (toffs es o) = o.
Proof.
  induction es as [|[[] s] r IH]; intros o; cbn [toffs hd]; auto.
  change (zlen (vr [])) with 0. cbn. lia.
Qed.
Lemma toffs_bounds es : forall o, Forall (fun x => o <= x <= o + zlen (vr es)) (toffs es o).
Proof.
  induction es as [|[[] s] r IH]; intros o; cbn [toffs]; [constructor| |]; rewrite vr_cons.
  - rewrite zlen_app. pose proof (zlen_nonneg s). pose proof (zlen_nonneg (vr r)). constructor; [lia|].
    eapply Forall_impl; [|apply IH]. cbn beta. lia.
  - apply IH.
Qed.
Lemma toffs_sorted es : forall o, Sorted Z.le (toffs es o).
Proof.
  induction es as [|[[] s] r IH]; intros o; cbn [toffs]; [constructor| |apply IH].
  constructor; [apply IH|]. pose proof (toffs_bounds r (o + zlen s)) as B. pose proof (zlen_nonneg s).
  destruct (toffs r (o + zlen s)); constructor. inversion B; lia.
Qed.
Lemma toffs_fit es : Forall (fun o => o < 2 ^ 32) (toffs es (fixed_len es)) <-> series_fit es.
Proof.
  unfold series_fit.
  assert (G : forall r pre, Forall (fun o => o < 2 ^ 32) (toffs r (fixed_len (pre ++ r) + zlen (vr pre))) <->
    forall i, (i < length r)%nat -> fst (nth (length pre + i) (pre ++ r) (false, [])) = true ->
      offset_of (pre ++ r) (length pre + i) < 2 ^ 32).
  { clear es. induction r as [|[b s] r IH]; intros pre; [split; [cbn; lia|constructor]|].
    assert (N : nth (length pre + 0) (pre ++ (b, s) :: r) (false, []) = (b, s)).
    { rewrite app_nth2, Nat.add_0_r, Nat.sub_diag by lia. reflexivity. }
    assert (O : offset_of (pre ++ (b, s) :: r) (length pre + 0) = fixed_len (pre ++ (b, s) :: r) + zlen (vr pre)).
    { unfold offset_of, fixed_len. f_equal. unfold variable_lengths, variable_parts, vr, variable_parts.
      rewrite Nat.add_0_r, !map_app, firstn_app, !map_length, Nat.sub_diag. cbn [firstn].
      rewrite app_nil_r, firstn_all2 by (rewrite !map_length; lia).
      clear. induction pre as [|[b s] pre IH]; cbn [map concat sumZ fold_right]; auto.
      rewrite zlen_app. unfold sumZ in *. lia. }
    specialize (IH (pre ++ [(b, s)])). rewrite <- app_assoc in IH. cbn [app] in IH. rewrite app_length in IH. cbn [length] in IH.
    assert (V : zlen (vr (pre ++ [(b, s)])) = zlen (vr pre) + if b then zlen s else 0).
    { unfold vr, variable_parts. rewrite map_app, concat_app, zlen_app.
      cbn [map concat fst snd]. rewrite app_nil_r. destruct b; reflexivity. }
    rewrite V in IH.
    assert (T : Forall (fun o => o < 2 ^ 32) (toffs ((b, s) :: r) (fixed_len (pre ++ (b, s) :: r) + zlen (vr pre))) <->
      (b = true -> fixed_len (pre ++ (b, s) :: r) + zlen (vr pre) < 2 ^ 32) /\
      Forall (fun o => o < 2 ^ 32) (toffs r (fixed_len (pre ++ (b, s) :: r) + (zlen (vr pre) + if b then zlen s else 0)))).
    { destruct b; cbn [toffs].
      - rewrite Z.add_assoc. split; [intros F; inversion F; auto|intros [A B]; constructor; auto].
      - rewrite Z.add_0_r. split; [intros F; split; [discriminate|exact F]|tauto]. }
    rewrite T, IH. clear T IH V. split.
    - intros [A B] [|i] Hi Hf.
      + rewrite O. apply A. rewrite N in Hf. exact Hf.
      + specialize (B i ltac:(cbn in Hi; lia)). replace (length pre + 1 + i)%nat with (length pre + S i)%nat in B by lia. auto.
    - intros A. split.
      + intros ->. rewrite <- O. apply A; [cbn; lia|]. now rewrite N.
      + intros i Hi. replace (length pre + 1 + i)%nat with (length pre + S i)%nat by lia. apply A. cbn. lia. }
  specialize (G es []). cbn [app length] in G. change (zlen (vr [])) with 0 in G. rewrite Z.add_0_r in G. exact G.
Qed.

Definition sized (s : Z) (e : part) : Prop := fst e = (s =? 0) /\ (s <> 0 -> zlen (snd e) = s).
Lemma sized_room sizes es : Forall2 sized sizes es -> fixed_room sizes = fixed_len es.
Proof.
  induction 1 as [|s [b p] sizes es [E L] _ IH]; [reflexivity|]. rewrite fixed_len_cons. cbn [fst snd] in *. subst b.
  change (fixed_room (s :: sizes)) with ((if s =? 0 then 4 else s) + fixed_room sizes).
  rewrite IH. destruct (Z.eqb_spec s 0); [reflexivity|]. rewrite L; auto.
Qed.

(** An encoded series is cut at the right places if its offsets fit. *)
Lemma cut_series es : forall sizes pre mid o b it,
  Forall2 sized sizes es -> b = pre ++ fx es o ++ mid ++ vr es -> it = zlen pre ->
  o = zlen pre + fixed_len es + zlen mid -> Forall (fun x => x < 2 ^ 32) (toffs es o) ->
  offsets sizes b it = toffs es o /\ map (fun r : Z * Z => bytes_at b (fst r) (snd r)) (part_ranges sizes b it) = map snd es.
Proof.
  induction es as [|[f s] es IH]; intros sizes pre mid o b it Hs Hb Hit Ho Hf.
  - inversion Hs; subst sizes. split; reflexivity.
  - inversion Hs as [|z ? r ? [Ez Lz] Hr]; subst sizes. cbn [fst snd] in Ez, Lz. subst f.
    pose proof (zlen_nonneg pre). pose proof (zlen_nonneg mid). pose proof (fixed_len_nonneg es).
    cbn [offsets part_ranges map]. rewrite fixed_len_cons in Ho. rewrite vr_cons in Hb.
    destruct (Z.eqb_spec z 0) as [->|Hz]; cbn [toffs fx] in *.
    + inversion Hf as [|? ? Hf1 Hf2]; subst x l.
      assert (U : u32_at b it = o).
      { unfold u32_at. rewrite Hb, <- app_assoc, bytes_at_mid; [|lia|rewrite zlen_le_bytes; lia].
        rewrite le_val_bytes. apply Z.mod_small. change (256 ^ Z.of_nat 4) with (2 ^ 32). lia. }
      destruct (IH r (pre ++ le_bytes 4 o) (mid ++ s) (o + zlen s) b (it + 4)) as [I1 I2]; auto.
      * rewrite Hb. rewrite <- !app_assoc. reflexivity.
      * rewrite zlen_app, zlen_le_bytes. lia.
      * rewrite !zlen_app, zlen_le_bytes. lia.
      * rewrite U, I1. split; [reflexivity|]. cbn [map fst snd]. rewrite I2. f_equal.
        assert (L : zlen b = o + zlen s + zlen (vr es)).
        { rewrite Hb. rewrite !zlen_app, zlen_le_bytes, zlen_fx. lia. }
        rewrite L, hd_toffs. rewrite Hb.
        replace (pre ++ (le_bytes 4 o ++ fx es (o + zlen s)) ++ mid ++ s ++ vr es)
          with ((pre ++ (le_bytes 4 o ++ fx es (o + zlen s)) ++ mid) ++ s ++ vr es) by (rewrite <- !app_assoc; reflexivity).
        apply bytes_at_mid; rewrite !zlen_app, zlen_le_bytes, zlen_fx; lia.
    + specialize (Lz Hz).
      destruct (IH r (pre ++ s) mid o b (it + z)) as [I1 I2]; auto.
      * rewrite Hb. rewrite <- !app_assoc. reflexivity.
      * rewrite zlen_app. lia.
      * rewrite zlen_app. lia.
      * rewrite I1. split; [reflexivity|]. cbn [map fst snd]. rewrite I2. f_equal. rewrite Hb, <- app_assoc.
        apply bytes_at_mid; lia.
Qed.
Lemma cut_whole sizes es : Forall2 sized sizes es -> series_fit es ->
  layout_ok sizes (ssz_series es) /\ parts sizes (ssz_series es) = map snd es.
Proof.
  intros Hs Hf. apply toffs_fit in Hf.
  destruct (cut_series es sizes [] [] (fixed_len es) (ssz_series es) 0) as [A B]; auto.
  { apply ssz_series_fx. } { change (zlen (@nil Z)) with 0. lia. }
  split; [|exact B]. pose proof (zlen_nonneg (vr es)). unfold layout_ok. rewrite A, (sized_room _ _ Hs).
  assert (L : zlen (ssz_series es) = fixed_len es + zlen (vr es)) by (rewrite ssz_series_fx, zlen_app, zlen_fx; reflexivity).
  split; [lia|]. split; [|split].
  - pose proof (hd_toffs es (fixed_len es)) as E. destruct (toffs es (fixed_len es)); auto.
  - apply toffs_sorted.
  - eapply Forall_impl; [|apply toffs_bounds]. cbn beta. lia.
Qed.

(** A correct layout, put together again. *)
Definition cut (sizes : list Z) (b : list Z) (it : Z) : list part :=
  combine (map (fun s => s =? 0) sizes) (map (fun r : Z * Z => bytes_at b (fst r) (snd r)) (part_ranges sizes b it)).
Lemma room_pos sizes : Forall (fun s => 0 <= s) sizes -> 0 <= fixed_room sizes.
Proof.
  unfold fixed_room. induction 1; cbn [map sumZ fold_right]; [lia|].
  change (fold_right Z.add 0) with sumZ. destruct (Z.eqb_spec x 0); lia.
Qed.
Lemma u32_at_bound b i : bytes_ok b -> 0 <= i -> i + 4 <= zlen b -> 0 <= u32_at b i < 2 ^ 32 /\ le_bytes 4 (u32_at b i) = bytes_at b i (i + 4).
Proof.
  intros Hb Hi Hl. pose proof (bytes_at_ok b i (i + 4) Hb) as Hk. pose proof (zlen_bytes_at b i (i + 4)) as L.
  unfold u32_at. pose proof (le_val_bound _ Hk) as B. rewrite L in B by lia.
  replace (i + 4 - i) with 4 in * by lia. split; [exact B|].
  rewrite <- (le_bytes_val _ Hk) at 2. f_equal. unfold zlen in L. lia.
Qed.
Lemma join_parts b : bytes_ok b -> forall sizes it, Forall (fun s => 0 <= s) sizes ->
  0 <= it -> it + fixed_room sizes <= zlen b -> Sorted Z.le (offsets sizes b it) ->
  Forall (fun o => o <= zlen b) (offsets sizes b it) ->
  let o := hd (zlen b) (offsets sizes b it) in
  fx (cut sizes b it) o = bytes_at b it (it + fixed_room sizes) /\
  vr (cut sizes b it) = bytes_at b o (zlen b) /\
  Forall2 sized sizes (cut sizes b it) /\ toffs (cut sizes b it) o = offsets sizes b it.
Proof.
  intros Hb. induction sizes as [|s r IH]; intros it Hp Hit Hr Hs Ha; cbv zeta.
  { unfold cut. cbn [map combine fx offsets hd toffs part_ranges]. change (fixed_room []) with 0.
    rewrite Z.add_0_r, !bytes_at_empty. repeat split; constructor. }
  inversion Hp as [|? ? Hs0 Hps]; subst. pose proof (room_pos r Hps) as Hrp.
  change (fixed_room (s :: r)) with ((if s =? 0 then 4 else s) + fixed_room r) in *.
  unfold cut. cbn [offsets part_ranges map combine fst snd] in *.
  destruct (Z.eqb_spec s 0) as [->|Hz].
  - cbn [map combine fx toffs hd fst snd]. fold (cut r b (it + 4)).
    inversion Hs as [|? ? Hs1 Hs2]; inversion Ha as [|? ? Ha1 Ha2]; subst.
    destruct (IH (it + 4) Hps ltac:(lia) ltac:(lia) Hs1 Ha2) as (I1 & I2 & I3 & I4).
    set (o' := hd (zlen b) (offsets r b (it + 4))) in *.
    assert (Ho : u32_at b it <= o' <= zlen b).
    { unfold o'. destruct (offsets r b (it + 4)) as [|x y]; cbn [hd]; [lia|]. inversion Hs2; inversion Ha2; subst. lia. }
    destruct (u32_at_bound b it Hb Hit ltac:(lia)) as [Hu Hw].
    assert (L : zlen (bytes_at b (u32_at b it) o') = o' - u32_at b it) by (apply zlen_bytes_at; lia).
    rewrite L. replace (u32_at b it + (o' - u32_at b it)) with o' by lia.
    rewrite I1, Hw, I4, vr_cons, I2. split; [|split; [|split]].
    + rewrite (bytes_at_join b it (it + 4) (it + (4 + fixed_room r))) by lia. f_equal. f_equal. lia.
    + rewrite <- bytes_at_join by lia. reflexivity.
    + constructor; [split; [reflexivity|lia]|exact I3].
    + reflexivity.
  - cbn [map combine fx toffs fst snd]. fold (cut r b (it + s)).
    destruct (IH (it + s) Hps ltac:(lia) ltac:(lia) Hs Ha) as (I1 & I2 & I3 & I4).
    rewrite I1, vr_cons, I2. split; [|split; [|split]].
    + rewrite (bytes_at_join b it (it + s) (it + (s + fixed_room r))) by lia. f_equal. f_equal. lia.
    + reflexivity.
    + constructor; [split; cbn [fst snd]; [lia|]|exact I3]. intros _. rewrite zlen_bytes_at; lia.
    + exact I4.
Qed.
Lemma cut_snd sizes : forall b it, map snd (cut sizes b it) = map (fun r : Z * Z => bytes_at b (fst r) (snd r)) (part_ranges sizes b it).
Proof.
  unfold cut. induction sizes as [|s r IH]; intros b it; [reflexivity|]. cbn [map combine part_ranges].
  destruct (s =? 0); cbn [map combine fst snd]; f_equal; apply IH.
Qed.
Lemma join_whole b sizes : bytes_ok b -> Forall (fun s => 0 <= s) sizes -> layout_ok sizes b ->
  Forall2 sized sizes (cut sizes b 0) /\ map snd (cut sizes b 0) = parts sizes b /\
  (existsb (fun s => s =? 0) sizes = true -> ssz_series (cut sizes b 0) = b) /\
  (existsb (fun s => s =? 0) sizes = false -> ssz_series (cut sizes b 0) = bytes_at b 0 (fixed_room sizes)).
Proof.
  intros Hb Hp (H1 & H2 & H3 & H4). pose proof (room_pos sizes Hp) as Hrp.
  destruct (join_parts b Hb sizes 0 Hp ltac:(lia) ltac:(lia) H3 H4) as (I1 & I2 & I3 & I4).
  split; [exact I3|]. split; [apply cut_snd|]. rewrite Z.add_0_l in I1.
  assert (F : fixed_len (cut sizes b 0) = fixed_room sizes) by (symmetry; now apply sized_room).
  rewrite ssz_series_fx, F.
  assert (Ex : forall it, existsb (fun s => s =? 0) sizes = negb match offsets sizes b it with [] => true | _ => false end).
  { clear. induction sizes as [|s r IH]; intros it; [reflexivity|]. cbn [existsb offsets].
    destruct (s =? 0); [reflexivity|]. apply IH. }
  rewrite (Ex 0). clear Ex. destruct (offsets sizes b 0) as [|o os] eqn:EO; cbn [hd negb] in *.
  - split; [discriminate|intros _]. rewrite I2, bytes_at_empty, app_nil_r, <- I1.
    revert I4. clear. generalize (cut sizes b 0) as es. generalize (zlen b) as z. generalize (fixed_room sizes) as z'.
    intros z' z es. induction es as [|[[] s] es IH]; cbn [toffs fx]; [reflexivity|discriminate|].
    intros E. f_equal. apply IH. exact E.
  - split; [intros _|discriminate]. subst o. rewrite I1, I2, <- bytes_at_join by lia. apply bytes_at_all.
Qed.

(** Types as they occur: no empty fixed-size type. *)
Fixpoint solid (s : sty) : bool :=
  match s with
  | SUint64 | SBoolean | SBitlist _ => true
  | SByteVector n | SBitvector n => 0 <? n
  | SVector s' n => (0 <? n) && solid s' && negb (is_variable s')
  | SList s' _ => solid s'
  | SContainer fs => forallb (fun f => solid (snd f)) fs && negb (match fs with [] => true | _ => false end)
  end.
Lemma solid_size s : solid s = true -> 0 <= sty_size s /\ is_variable s = (sty_size s =? 0).
Proof.
  induction s using sty_ind'; cbn [solid is_variable sty_size]; intros Hs; rewrite ?andb_true_iff in Hs.
  - lia.
  - lia.
  - lia.
  - pose proof (Z.div_pos (n + 7) 8). pose proof (Z.div_str_pos (n + 7) 8). lia.
  - lia.
  - destruct Hs as [[Hn Hs] Hv]. destruct (IHs Hs) as [A B]. rewrite B in *. nia.
  - lia.
  - destruct Hs as [Hs Hne]. destruct (existsb _ fs) eqn:E; [lia|].
    assert (G : Forall (fun f => 0 < sty_size (snd f)) fs).
    { rewrite Forall_forall in *. rewrite forallb_forall in Hs. intros f Hf. destruct (H f Hf (Hs f Hf)) as [A B].
      destruct (is_variable (snd f)) eqn:V; [|lia].
      assert (existsb (fun f => is_variable (snd f)) fs = true) by (apply existsb_exists; eauto). congruence. }
    destruct G as [|f fs Hf G]; [discriminate|]. cbn [map sumZ fold_right].
    assert (0 <= fold_right Z.add 0 (map (fun f => sty_size (snd f)) fs)).
    { clear - G. induction G; cbn [map fold_right]; lia. }
    lia.
Qed.

(** Values with the shape of a type, limits disregarded. *)
Fixpoint shape (s : sty) (v : val) {struct s} : Prop :=
  match s, v with
  | SUint64, VNum n => 0 <= n < 2 ^ 64
  | SBoolean, VBool _ => True
  | SByteVector n, VBytes l => zlen l = n /\ bytes_ok l
  | SBitvector n, VBits l => zlen l = n
  | SBitlist _, VBits l => True
  | SVector s' n, VSeq l => zlen l = n /\ Forall (shape s') l
  | SList s' _, VSeq l => Forall (shape s') l
  | SContainer fs, VSeq l =>
      (fix go (fs : list (string * sty)) (l : list val) : Prop :=
         match fs, l with
         | [], [] => True
         | (_, s') :: fs', v' :: l' => shape s' v' /\ go fs' l'
         | _, _ => False
         end) fs l
  | _, _ => False
  end.

(** Composite values as series: the types of the elements, and their encodings. *)
Definition subs (s : sty) (l : list val) : list sty :=
  match s with
  | SVector s' _ | SList s' _ => repeat s' (length l)
  | SContainer fs => map snd fs
  | _ => []
  end.
Definition composite (s : sty) : bool :=
  match s with SVector _ _ | SList _ _ | SContainer _ => true | _ => false end.
Definition es_of (ss : list sty) (l : list val) : list part :=
  map (fun sv : sty * val => (is_variable (fst sv), ssz_serialize (fst sv) (snd sv))) (combine ss l).
Lemma es_repeat s l : es_of (repeat s (length l)) l = map (fun e => (is_variable s, ssz_serialize s e)) l.
Proof. unfold es_of. induction l as [|v l IH]; [reflexivity|]. cbn [length repeat combine map fst snd]. now f_equal. Qed.
Lemma es_fields fs : forall l,
  (fix go (fs : list (string * sty)) (l : list val) : list (bool * list Z) :=
     match fs, l with
     | (_, t') :: fs', v' :: l' => (is_variable t', ssz_serialize t' v') :: go fs' l'
     | _, _ => []
     end) fs l = es_of (map snd fs) l.
Proof.
  induction fs as [|[n s] fs IH]; intros [|v l]; try reflexivity. unfold es_of. cbn [combine map fst snd]. f_equal. apply IH.
Qed.
Lemma ser_subs s l : composite s = true -> ssz_serialize s (VSeq l) = ssz_series (es_of (subs s l) l).
Proof.
  destruct s; try discriminate; intros _; cbn [ssz_serialize subs]; f_equal.
  - symmetry. apply es_repeat.
  - symmetry. apply es_repeat.
  - apply es_fields.
Qed.
Definition typed_as (s : sty) (l : list val) : Prop :=
  match s with SVector _ n => zlen l = n | _ => True end /\ length l = length (subs s l).
Lemma shape_subs s v : composite s = true ->
  (shape s v <-> exists l, v = VSeq l /\ typed_as s l /\ Forall2 shape (subs s l) l).
Proof.
  assert (R : forall s' l, Forall (shape s') l <-> Forall2 shape (repeat s' (length l)) l).
  { intros s'. induction l as [|v' l IH]; cbn [length repeat]; [split; constructor|].
    split; [intros F; inversion F; subst; constructor; tauto|intros F; inversion F; subst; constructor; tauto]. }
  unfold typed_as. destruct s; try discriminate; intros _; destruct v; cbn [shape subs]; rewrite ?R.
  all: try (split; [tauto|intros (? & E & _); discriminate E]).
  - split; [intros [A B]; exists l; rewrite repeat_length; auto|intros (? & [= <-] & [A _] & B); auto].
  - split; [intros B; exists l; rewrite repeat_length; auto|intros (? & [= <-] & [A _] & B); auto].
  - assert (E : (fix go (fs : list (string * sty)) (l : list val) : Prop :=
         match fs, l with
         | [], [] => True
         | (_, s') :: fs', v' :: l' => shape s' v' /\ go fs' l'
         | _, _ => False
         end) fields l <-> Forall2 shape (map snd fields) l).
    { clear. revert l. induction fields as [|[n s] fs IH]; intros [|v l]; cbn [map snd].
      - split; [constructor|tauto].
      - split; [tauto|inversion 1].
      - split; [tauto|inversion 1].
      - rewrite IH. split; [intros [? ?]; constructor; auto|inversion 1; auto]. }
    rewrite E. split; [intros B; exists l; repeat split; auto; symmetry; exact (Forall2_len _ _ _ B)|intros (? & [= <-] & _ & B); auto].
Qed.
Lemma fit_subs s l : composite s = true -> length l = length (subs s l) ->
  (offsets_fit s (VSeq l) <-> series_fit (es_of (subs s l) l) /\ Forall2 offsets_fit (subs s l) l).
Proof.
  assert (R : forall s' l, Forall (offsets_fit s') l <-> Forall2 offsets_fit (repeat s' (length l)) l).
  { intros s'. clear l. induction l as [|v' l IH]; cbn [length repeat]; [split; constructor|].
    split; [intros F; inversion F; subst; constructor; tauto|intros F; inversion F; subst; constructor; tauto]. }
  destruct s; try discriminate; intros _ Hl; cbn [offsets_fit subs] in *; rewrite ?R, ?es_repeat; try tauto.
  rewrite es_fields.
  assert (E : (fix all (fs : list (string * sty)) (l : list val) : Prop :=
         match fs, l with
         | (_, t') :: fs', v' :: l' => offsets_fit t' v' /\ all fs' l'
         | _, _ => True
         end) fields l <-> Forall2 offsets_fit (map snd fields) l).
  { rewrite map_length in Hl. revert l Hl. induction fields as [|[n s] fs IH]; intros [|v l] Hl; try discriminate; cbn [map snd]; [split; [constructor|tauto]|].
    rewrite (IH l) by (now injection Hl). split; [intros [? ?]; constructor; auto|inversion 1; auto]. }
  rewrite E. tauto.
Qed.
Definition fills (s : sty) (b : list Z) (l : list val) : Prop :=
  match s with
  | SVector s' n => zlen l = n /\ zlen b = n * sty_size s'
  | SList s' _ => if is_variable s' then l = [] -> b = [] else zlen b = zlen l * sty_size s'
  | _ => True
  end.
Lemma room_repeat z n : z <> 0 -> fixed_room (repeat z n) = Z.of_nat n * z.
Proof.
  intros Hz. induction n as [|n IH]; [reflexivity|]. cbn [repeat].
  change (fixed_room (z :: repeat z n)) with ((if z =? 0 then 4 else z) + fixed_room (repeat z n)).
  rewrite IH. destruct (Z.eqb_spec z 0); lia.
Qed.
Lemma offsets_repeat z b : z <> 0 -> forall n it, offsets (repeat z n) b it = [].
Proof. intros Hz. induction n as [|n IH]; intros it; [reflexivity|]. cbn [repeat offsets]. destruct (Z.eqb_spec z 0); [lia|]. apply IH. Qed.
Lemma layout_fixed z n b : z <> 0 -> zlen b = Z.of_nat n * z -> layout_ok (repeat z n) b.
Proof.
  intros Hz Hb. unfold layout_ok. rewrite offsets_repeat, room_repeat by auto. repeat split; [lia|constructor|constructor].
Qed.
Lemma accepts_subs s : solid s = true -> composite s = true -> forall b v, accepts s b v <->
  exists l, v = VSeq l /\ fills s b l /\ layout_ok (map sty_size (subs s l)) b /\
    acc_all (subs s l) (parts (map sty_size (subs s l)) b) l.
Proof.
  intros Hs Hc b v. destruct s; try discriminate; destruct v; cbn [accepts].
  all: try (split; [tauto|intros (? & E & _); discriminate E]).
  - cbn [solid] in Hs. rewrite !andb_true_iff in Hs. destruct Hs as [[Hn Hs] Hv]. destruct (solid_size _ Hs) as [Sz Sv].
    rewrite Sv in Hv. assert (Hz : sty_size s <> 0) by lia. split.
    + intros (A & B & C). exists l. cbn [fills subs]. rewrite map_repeat. split; [reflexivity|].
      split; [auto|]. split; [apply layout_fixed; auto; unfold zlen in *; lia|now apply acc_all_repeat].
    + intros (? & [= <-] & [A B] & _ & C). cbn [subs] in C. rewrite map_repeat in C. apply acc_all_repeat in C. auto.
  - cbn [solid] in Hs. destruct (solid_size _ Hs) as [Sz Sv].
    cbn [fills subs]. rewrite Sv. destruct (Z.eqb_spec (sty_size s) 0) as [Z0|Hz].
    + setoid_rewrite map_repeat. setoid_rewrite Z0. split.
      * intros [[-> ->]|(A & B & C)].
        -- exists []. cbn. repeat split; try tauto; try constructor. unfold zlen. cbn. lia.
        -- exists l. split; [reflexivity|]. split; [tauto|]. split; [exact B|]. now apply acc_all_repeat.
      * intros (? & [= <-] & A & B & C). apply acc_all_repeat in C. destruct l as [|v l]; [left; auto|right; split; [discriminate|auto]].
    + split.
      * intros (A & B). exists l. rewrite map_repeat. split; [reflexivity|]. split; [auto|].
        split; [apply layout_fixed; auto|now apply acc_all_repeat].
      * intros (? & [= <-] & A & _ & C). rewrite map_repeat in C. apply acc_all_repeat in C. auto.
  - cbn [subs fills]. setoid_rewrite go_acc_all. setoid_rewrite map_map. split.
    + intros [A B]. exists l. auto.
    + intros (? & [= <-] & _ & A & B). auto.
Qed.
Lemma acc_all_split ss : forall bs l, acc_all ss bs l <->
  length bs = length ss /\ Forall2 (fun (sb : sty * list Z) v => accepts (fst sb) (snd sb) v) (combine ss bs) l.
Proof.
  induction ss as [|s ss IH]; intros [|b bs] [|v l]; cbn [acc_all combine length].
  all: try (split; [tauto|intros [E F]; (discriminate E || inversion F)]).
  - split; auto.
  - rewrite IH. split.
    + intros (A & B & C). split; [congruence|constructor; auto].
    + intros [A B]. inversion B; subst. auto.
Qed.

(** What is accepted is as long as what would be written. *)
Definition len_ok (s : sty) (v : val) (n : Z) : Prop :=
  zlen (ssz_serialize s v) = if is_variable s then n else sty_size s.
Definition acc_len (s : sty) : Prop := forall b v, bytes_ok b -> accepts s b v -> len_ok s v (zlen b).
Lemma parts_ok sizes b : bytes_ok b -> Forall bytes_ok (parts sizes b).
Proof. intros Hb. unfold parts. apply Forall_map, Forall_forall. intros r _. now apply bytes_at_ok. Qed.
Lemma es_sized ss : Forall (fun s => solid s = true) ss -> Forall acc_len ss -> forall bs l, Forall bytes_ok bs -> acc_all ss bs l ->
  Forall2 sized (map sty_size ss) (es_of ss l) /\
  Forall2 (fun (e : part) p => fst e = true -> zlen (snd e) = zlen p) (es_of ss l) bs.
Proof.
  intros Hs. induction Hs as [|s ss Hs _ IH]; intros Hl [|b bs] [|v l] Hb Ha; cbn [acc_all] in Ha; try contradiction.
  { split; constructor. }
  inversion Hl; inversion Hb; subst. destruct Ha as [Ha Hr]. destruct (IH ltac:(assumption) bs l ltac:(assumption) Hr) as [I1 I2].
  destruct (solid_size s Hs) as [Sz Sv]. match goal with A : acc_len s |- _ => specialize (A b v ltac:(assumption) Ha); unfold len_ok in A end.
  unfold es_of in *. cbn [combine map fst snd]. split; constructor; auto.
  - split; [exact Sv|]. intros Hz. cbn [snd]. destruct (is_variable s) eqn:V; [lia|assumption].
  - cbn [fst snd]. intros V. rewrite V in *. assumption.
Qed.
Lemma existsb_map {A B} (f : A -> B) (p : B -> bool) l : existsb p (map f l) = existsb (fun a => p (f a)) l.
Proof. induction l; cbn; congruence. Qed.
Lemma sizes_nonneg ss : Forall (fun s => solid s = true) ss -> Forall (fun s => 0 <= s) (map sty_size ss).
Proof. intros H. apply Forall_map. eapply Forall_impl; [|exact H]. intros s Hs. now apply solid_size. Qed.
Lemma var_sizes ss : Forall (fun s => solid s = true) ss ->
  existsb (fun s => s =? 0) (map sty_size ss) = existsb is_variable ss.
Proof. induction 1 as [|s ss Hs _ IH]; [reflexivity|]. cbn [map existsb]. rewrite IH. f_equal. symmetry. now apply solid_size. Qed.
Lemma cut_same es : forall es', map fst es = map fst es' ->
  Forall2 (fun (e : part) p => fst e = true -> zlen (snd e) = zlen p) es' (map snd es) ->
  toffs es = toffs es' /\ zlen (vr es) = zlen (vr es').
Proof.
  induction es as [|[f p] es IH]; intros [|[f' p'] es'] E Hl; try discriminate; [split; reflexivity|].
  inversion Hl; subst. cbn [map fst snd] in *. injection E as -> E. destruct (IH es' E ltac:(assumption)) as [I1 I2].
  rewrite !vr_cons. cbn [toffs]. rewrite I1. destruct f'.
  - match goal with A : true = true -> _ |- _ => rewrite (A eq_refl) end. rewrite !zlen_app. split; [reflexivity|].
    match goal with A : true = true -> _ |- _ => rewrite (A eq_refl) end. lia.
  - split; [reflexivity|exact I2].
Qed.
Lemma sized_fst sizes es : Forall2 sized sizes es -> map fst es = map (fun s => s =? 0) sizes.
Proof. induction 1 as [|s e sizes es [E _] _ IH]; [reflexivity|]. cbn [map]. congruence. Qed.
Lemma series_acc_len ss b l : Forall (fun s => solid s = true) ss -> Forall acc_len ss -> bytes_ok b ->
  layout_ok (map sty_size ss) b -> acc_all ss (parts (map sty_size ss) b) l ->
  zlen (ssz_series (es_of ss l)) = if existsb is_variable ss then zlen b else fixed_room (map sty_size ss).
Proof.
  intros Hs Hl Hb Ho Ha. destruct (es_sized ss Hs Hl _ l (parts_ok _ b Hb) Ha) as [E1 E2].
  destruct (join_whole b _ Hb (sizes_nonneg ss Hs) Ho) as (J1 & J2 & J3 & J4). rewrite <- J2 in E2.
  destruct (cut_same (cut (map sty_size ss) b 0) (es_of ss l)) as [_ V]; auto.
  { rewrite (sized_fst _ _ E1). now apply sized_fst. }
  rewrite (var_sizes ss Hs) in J3, J4. rewrite ssz_series_fx, zlen_app, zlen_fx, <- V, <- (sized_room _ _ E1), (sized_room _ _ J1).
  destruct (existsb is_variable ss).
  - rewrite <- (J3 eq_refl) at 3. rewrite ssz_series_fx, zlen_app, zlen_fx. reflexivity.
  - specialize (J4 eq_refl). apply (f_equal zlen) in J4. rewrite ssz_series_fx, zlen_app, zlen_fx in J4. rewrite J4.
    rewrite zlen_bytes_at; [rewrite (sized_room _ _ J1); lia| |destruct Ho; lia].
    pose proof (room_pos _ (sizes_nonneg ss Hs)). lia.
Qed.

Lemma sty_comp_ind (P : sty -> Prop) :
  (forall s, composite s = false -> P s) ->
  (forall s, composite s = true -> (forall l, Forall P (subs s l)) -> P s) -> forall s, P s.
Proof.
  intros Hl Hc. induction s using sty_ind'; try (apply Hl; reflexivity).
  - apply Hc; [reflexivity|]. intros l. cbn [subs]. now apply Forall_repeat.
  - apply Hc; [reflexivity|]. intros l. cbn [subs]. now apply Forall_repeat.
  - apply Hc; [reflexivity|]. intros l. cbn [subs]. apply Forall_map. exact H.
Qed.
Lemma subs_solid s l : solid s = true -> Forall (fun s => solid s = true) (subs s l).
Proof.
  destruct s; cbn [solid subs]; intros Hs; rewrite ?andb_true_iff in Hs; try constructor.
  - apply Forall_repeat. tauto.
  - apply Forall_repeat. exact Hs.
  - apply Forall_map, Forall_forall. destruct Hs as [Hs _]. rewrite forallb_forall in Hs. exact Hs.
Qed.
Lemma Forall_mp {A} (P Q : A -> Prop) l : Forall (fun a => P a -> Q a) l -> Forall P l -> Forall Q l.
Proof. induction 1; intros F; inversion F; constructor; auto. Qed.
Lemma sumZ_ext_in {A} (f g : A -> Z) l : (forall a, In a l -> f a = g a) -> sumZ (map f l) = sumZ (map g l).
Proof. intros E. f_equal. now apply map_ext_in. Qed.
Lemma existsb_repeat {A} (p : A -> bool) a n : existsb p (repeat a n) = (negb (Nat.eqb n 0) && p a)%bool.
Proof. induction n as [|n IH]; [reflexivity|]. cbn [repeat existsb]. rewrite IH. destruct (p a), n; reflexivity. Qed.

Theorem accepted_len s : solid s = true -> acc_len s.
Proof.
  induction s as [s Hc|s Hc IH] using sty_comp_ind; intros Hs b v Hb Ha.
  - unfold len_ok. destruct s; try discriminate Hc; destruct v; cbn [accepts] in Ha; try contradiction;
      cbn [is_variable ssz_serialize sty_size].
    + apply zlen_le_bytes.
    + reflexivity.
    + destruct Ha. subst. lia.
    + cbn [solid] in Hs. rewrite zlen_le_bytes, Z2Nat.id by (apply Z.div_pos; lia). reflexivity.
    + now rewrite <- Ha.
  - apply (accepts_subs s Hs Hc) in Ha. destruct Ha as (l & -> & Hf & Ho & Ha). unfold len_ok.
    pose proof (subs_solid s l Hs) as Hss.
    rewrite (ser_subs s l Hc), (series_acc_len _ b l Hss (Forall_mp _ _ _ (IH l) Hss) Hb Ho Ha).
    destruct s; try discriminate Hc; cbn [subs fills is_variable sty_size] in *.
    + cbn [solid] in Hs. rewrite !andb_true_iff in Hs. destruct Hs as [[Hn Hs] Hv]. destruct (solid_size s Hs) as [Sz Sv].
      apply negb_true_iff in Hv. rewrite Hv in Sv. symmetry in Sv. apply Z.eqb_neq in Sv.
      rewrite existsb_repeat, Hv, andb_false_r, map_repeat, room_repeat by exact Sv. f_equal. exact (proj1 Hf).
    + cbn [solid] in Hs. destruct (solid_size s Hs) as [Sz Sv].
      rewrite existsb_repeat. destruct (is_variable s).
      * destruct l; [rewrite (Hf eq_refl); reflexivity|reflexivity].
      * symmetry in Sv. apply Z.eqb_neq in Sv. rewrite andb_false_r, map_repeat, room_repeat by exact Sv. symmetry. exact Hf.
    + rewrite existsb_map. destruct (existsb _ fields) eqn:E; [reflexivity|].
      clear - Hss E. unfold fixed_room. rewrite !map_map. apply sumZ_ext_in. intros f Hf.
      rewrite Forall_map, Forall_forall in Hss. destruct (solid_size _ (Hss f Hf)) as [Sz Sv].
      destruct (is_variable (snd f)) eqn:V.
      * assert (existsb (fun a => is_variable (snd a)) fields = true) by (apply existsb_exists; eauto). congruence.
      * destruct (Z.eqb_spec (sty_size (snd f)) 0); lia.
Qed.

Lemma ser_ok s : forall v, shape s v -> bytes_ok (ssz_serialize s v).
Proof.
  induction s as [s Hc|s Hc IH] using sty_comp_ind; intros v Hv.
  - destruct s; try discriminate Hc; destruct v; cbn [shape] in Hv; try contradiction; cbn [ssz_serialize];
      try apply le_bytes_ok; try tauto. constructor; [destruct b; unfold byte_ok; cbn; lia|constructor].
  - apply (shape_subs s v Hc) in Hv. destruct Hv as (l & -> & _ & Hv). rewrite (ser_subs s l Hc), ssz_series_fx.
    assert (G : Forall (fun e : part => bytes_ok (snd e)) (es_of (subs s l) l)).
    { specialize (IH l). revert IH. unfold es_of. induction Hv as [|s' v' ss l' Hv _ IHv]; intros IH; inversion IH; subst; constructor; auto.
      cbn [fst snd]. auto. }
    apply Forall_app. split; [now apply fx_bytes_ok|now apply vr_bytes_ok].
Qed.
Definition self (s : sty) (v : val) : Prop := accepts s (ssz_serialize s v) v.
Lemma acc_all_self ss : forall l, Forall2 self ss l <-> length l = length ss /\ acc_all ss (map snd (es_of ss l)) l.
Proof.
  unfold es_of. induction ss as [|s ss IH]; intros [|v l]; cbn [combine map acc_all fst snd length].
  - split; [auto|constructor].
  - split; [inversion 1|intros [E _]; discriminate E].
  - split; [inversion 1|intros [E _]; discriminate E].
  - split.
    + inversion 1; subst. match goal with F : Forall2 self _ _ |- _ => apply IH in F; destruct F end. split; [congruence|auto].
    + intros (A & B & C). constructor; [exact B|]. apply IH. split; [congruence|exact C].
Qed.
Lemma shape_len ss l : Forall2 shape ss l -> Forall (fun s => solid s = true) ss -> Forall2 self ss l ->
  Forall2 sized (map sty_size ss) (es_of ss l).
Proof.
  unfold es_of. induction 1 as [|s v ss l Hv _ IH]; intros Hs Ha; [constructor|].
  inversion Hs; inversion Ha; subst. cbn [map combine fst snd]. constructor; [|auto].
  destruct (solid_size s ltac:(assumption)) as [Sz Sv]. split; [exact Sv|]. intros Hz. cbn [snd].
  match goal with A : self s v |- _ => pose proof (accepted_len s ltac:(assumption) _ _ (ser_ok s v Hv) A) as L end.
  unfold len_ok in L. destruct (is_variable s); [lia|exact L].
Qed.
(** Encoding and decoding: values whose offsets fit are accepted as themselves ... *)
Theorem fit_self s : solid s = true -> forall v, shape s v -> offsets_fit s v -> self s v.
Proof.
  unfold self. induction s as [s Hc|s Hc IH] using sty_comp_ind; intros Hs v Hv Hf.
  - destruct s; try discriminate Hc; destruct v; cbn [shape] in Hv; try contradiction; cbn [accepts ssz_serialize].
    + rewrite zlen_le_bytes, le_val_bytes. split; [reflexivity|]. symmetry. apply Z.mod_small. exact Hv.
    + reflexivity.
    + tauto.
    + cbn [solid] in Hs. rewrite zlen_le_bytes, le_val_bytes, Z2Nat.id by (apply Z.div_pos; lia).
      split; [reflexivity|]. split; [exact Hv|]. pose proof (bits_val_bound l) as B. rewrite Hv in B.
      assert (L : 2 ^ n <= 256 ^ ((n + 7) / 8)).
      { change 256 with (2 ^ 8). rewrite <- Z.pow_mul_r by (try lia; apply Z.div_pos; lia). apply Z.pow_le_mono_r; lia. }
      rewrite (Z.mod_small _ (256 ^ _)) by lia. symmetry. now apply Z.mod_small.
    + reflexivity.
  - apply (shape_subs s v Hc) in Hv. destruct Hv as (l & -> & [Ht Hl] & Hv).
    apply (fit_subs s l Hc Hl) in Hf. destruct Hf as [Hf Hr]. pose proof (subs_solid s l Hs) as Hss.
    assert (Ha : Forall2 self (subs s l) l).
    { pose proof (Forall_mp _ _ _ (IH l) Hss) as I. clear - I Hv Hr. revert I Hr. induction Hv; intros I Hr; inversion I; inversion Hr; subst; constructor; auto. unfold self. auto. }
    pose proof (shape_len _ _ Hv Hss Ha) as Hz. destruct (cut_whole _ _ Hz Hf) as [Ho Hp].
    apply (accepts_subs s Hs Hc). rewrite (ser_subs s l Hc). exists l. split; [reflexivity|].
    assert (Hlen : forall n, existsb is_variable (subs s l) = false -> fixed_room (map sty_size (subs s l)) = n -> zlen (ssz_series (es_of (subs s l) l)) = n).
    { intros n Hv0 <-. apply acc_all_self in Ha. destruct Ha as [_ Ha]. rewrite <- Hp in Ha.
      assert (A : Forall acc_len (subs s l)) by (eapply Forall_impl; [|exact Hss]; intros; now apply accepted_len).
      assert (Hb : bytes_ok (ssz_series (es_of (subs s l) l))).
      { rewrite <- (ser_subs s l Hc). apply ser_ok. apply (shape_subs s _ Hc). exists l. split; [reflexivity|]. split; [split|]; assumption. }
      rewrite (series_acc_len _ _ l Hss A Hb Ho Ha), Hv0. reflexivity. }
    split; [|split; [exact Ho|]].
    + destruct s; try discriminate Hc; cbn [fills subs] in *; [| |exact I].
      * cbn [solid] in Hs. rewrite !andb_true_iff in Hs. destruct Hs as [[Hn Hs] Hv']. destruct (solid_size s Hs) as [Sz Sv].
        apply negb_true_iff in Hv'. rewrite Hv' in Sv. symmetry in Sv. apply Z.eqb_neq in Sv. split; [exact Ht|]. apply Hlen.
        -- rewrite existsb_repeat, Hv'. apply andb_false_r.
        -- rewrite map_repeat, room_repeat by exact Sv. f_equal. exact Ht.
      * cbn [solid] in Hs. destruct (solid_size s Hs) as [Sz Sv].
        destruct (is_variable s) eqn:V; [intros ->; reflexivity|]. symmetry in Sv. apply Z.eqb_neq in Sv. apply Hlen.
        -- rewrite existsb_repeat, V. apply andb_false_r.
        -- rewrite map_repeat, room_repeat by exact Sv. reflexivity.
    + rewrite Hp. apply acc_all_self in Ha. exact (proj2 Ha).
Qed.
Lemma u32_at_lt b i : bytes_ok b -> u32_at b i < 2 ^ 32.
Proof.
  intros Hb. unfold u32_at. pose proof (le_val_bound _ (bytes_at_ok b i (i + 4) Hb)) as B.
  assert (zlen (bytes_at b i (i + 4)) <= 4) by (unfold bytes_at, zlen; rewrite firstn_length; lia).
  assert (256 ^ zlen (bytes_at b i (i + 4)) <= 256 ^ 4) by (apply Z.pow_le_mono_r; lia).
  change (2 ^ 32) with (256 ^ 4). lia.
Qed.
Lemma offsets_lt b : bytes_ok b -> forall sizes it, Forall (fun o => o < 2 ^ 32) (offsets sizes b it).
Proof.
  intros Hb. induction sizes as [|s r IH]; intros it; cbn [offsets]; [constructor|].
  destruct (s =? 0); [constructor; [now apply u32_at_lt|]|]; apply IH.
Qed.
(** ... and only those. *)
Theorem self_fit s : solid s = true -> forall v, shape s v -> self s v -> offsets_fit s v.
Proof.
  induction s as [s Hc|s Hc IH] using sty_comp_ind; intros Hs v Hv Ha.
  - destruct s; try discriminate Hc; destruct v; exact I.
  - pose proof (ser_ok s v Hv) as Hb.
    apply (shape_subs s v Hc) in Hv. destruct Hv as (l & -> & [Ht Hl] & Hv). pose proof (subs_solid s l Hs) as Hss.
    unfold self in Ha. apply (accepts_subs s Hs Hc) in Ha. destruct Ha as (l' & E & _ & Ho & Ha). injection E as <-.
    rewrite (ser_subs s l Hc) in *. set (b := ssz_series (es_of (subs s l) l)) in *.
    assert (A : Forall acc_len (subs s l)) by (eapply Forall_impl; [|exact Hss]; intros; now apply accepted_len).
    destruct (es_sized _ Hss A _ l (parts_ok _ b Hb) Ha) as [E1 E2].
    pose proof (sizes_nonneg _ Hss) as Hn. pose proof Ho as (H1 & H2 & H3 & H4). pose proof (room_pos _ Hn) as Hr.
    destruct (join_parts b Hb _ 0 Hn ltac:(lia) ltac:(lia) H3 H4) as (_ & _ & J3 & J4).
    destruct (cut_same (cut (map sty_size (subs s l)) b 0) (es_of (subs s l) l)) as [T _].
    { rewrite (sized_fst _ _ E1). now apply sized_fst. }
    { rewrite cut_snd. exact E2. }
    rewrite T in J4.
    assert (F : series_fit (es_of (subs s l) l)).
    { apply toffs_fit. rewrite <- (sized_room _ _ E1). pose proof (offsets_lt b Hb (map sty_size (subs s l)) 0) as B.
      destruct (offsets (map sty_size (subs s l)) b 0) as [|o os] eqn:EO; cbn [hd] in *.
      - replace (toffs (es_of (subs s l) l) (fixed_room (map sty_size (subs s l)))) with (@nil Z); [constructor|].
        revert J4. generalize (zlen b) as z. generalize (fixed_room (map sty_size (subs s l))) as z'. clear.
        generalize (es_of (subs s l) l) as es. induction es as [|[[] p] es IH]; intros z' z; cbn [toffs]; [reflexivity|discriminate|apply IH].
      - rewrite H2 in J4. rewrite J4, <- H2. exact B. }
    apply (fit_subs s l Hc Hl). split; [exact F|].
    destruct (cut_whole _ _ E1 F) as [_ P]. fold b in P. rewrite P in Ha.
    assert (Hself : Forall2 self (subs s l) l) by (apply acc_all_self; auto).
    pose proof (Forall_mp _ _ _ (IH l) Hss) as I. clear - I Hv Hself. revert I Hself.
    induction Hv; intros I Hr; inversion I; inversion Hr; subst; constructor; auto.
Qed.

(** ** Re-encoding what was accepted *)
Fixpoint plain (s : sty) : bool :=
  match s with
  | SBitvector n => n mod 8 =? 0
  | SVector s' _ | SList s' _ => plain s'
  | SContainer fs => forallb (fun f => plain (snd f)) fs
  | _ => true
  end.
Lemma subs_plain s l : plain s = true -> Forall (fun s => plain s = true) (subs s l).
Proof.
  destruct s; cbn [plain subs]; intros Hs; try constructor.
  - now apply Forall_repeat.
  - now apply Forall_repeat.
  - apply Forall_map, Forall_forall. rewrite forallb_forall in Hs. exact Hs.
Qed.
Definition rewritten (s : sty) : Prop := forall b v, bytes_ok b -> accepts s b v ->
  is_variable s = true \/ zlen b = sty_size s -> ssz_serialize s v = b.
Lemma es_cut ss : Forall (fun s => solid s = true) ss -> Forall rewritten ss -> forall es l,
  Forall bytes_ok (map snd es) -> Forall2 sized (map sty_size ss) es -> acc_all ss (map snd es) l -> es_of ss l = es.
Proof.
  intros Hs. induction Hs as [|s ss Hs _ IH]; intros Hr es l Hb Hz Ha.
  - inversion Hz; subst. destruct l; [reflexivity|destruct Ha].
  - destruct es as [|[f p] es]; [inversion Hz|]. destruct l as [|v l]; [destruct Ha|]. cbn [map snd acc_all] in *.
    inversion Hz as [|? ? ? ? [E L] Hz']; subst. inversion Hr; inversion Hb; subst. destruct Ha as [Ha Hr'].
    destruct (solid_size s Hs) as [Sz Sv]. cbn [fst snd] in *. unfold es_of. cbn [combine map fst snd].
    fold (es_of ss l). rewrite (IH ltac:(assumption) es l ltac:(assumption) Hz' Hr'). f_equal.
    rewrite Sv, <- E. f_equal. match goal with R : rewritten s |- _ => apply R; auto end.
    rewrite Sv. destruct (Z.eqb_spec (sty_size s) 0); [left; reflexivity|right; auto].
Qed.
Theorem accepted_rewritten s : solid s = true -> plain s = true -> rewritten s.
Proof.
  induction s as [s Hc|s Hc IH] using sty_comp_ind; intros Hs Hp b v Hb Ha Hl.
  - destruct s; try discriminate Hc; destruct v; cbn [accepts] in Ha; try contradiction; cbn [ssz_serialize].
    + destruct Ha as [L ->]. rewrite <- (le_bytes_val b Hb) at 2. f_equal. unfold zlen in L. lia.
    + now symmetry.
    + tauto.
    + destruct Ha as (L & Hn & E). cbn [plain solid] in *. rewrite E.
      assert (Hd : n = 8 * ((n + 7) / 8)) by (pose proof (Z.div_mod n 8); assert (n mod 8 = 0) by lia; clear - H H0;
        replace ((n + 7) / 8) with (n / 8); [lia|]; replace (n + 7) with (7 + n / 8 * 8) by lia; rewrite Z.div_add by lia; reflexivity).
      assert (P : 2 ^ n = 256 ^ zlen b).
      { rewrite L. change 256 with (2 ^ 8). rewrite <- Z.pow_mul_r by (try lia; apply Z.div_pos; lia). f_equal. exact Hd. }
      rewrite P, Z.mod_small by (now apply le_val_bound). rewrite <- (le_bytes_val b Hb) at 2. f_equal.
      rewrite <- L. unfold zlen. apply Nat2Z.id.
    + now symmetry.
  - apply (accepts_subs s Hs Hc) in Ha. destruct Ha as (l & -> & Hf & Ho & Ha).
    pose proof (subs_solid s l Hs) as Hss. pose proof (subs_plain s l Hp) as Hpp.
    destruct (join_whole b _ Hb (sizes_nonneg _ Hss) Ho) as (J1 & J2 & J3 & J4). rewrite <- J2 in Ha.
    rewrite (ser_subs s l Hc).
    rewrite (es_cut _ Hss (Forall_mp _ _ _ (Forall_mp _ _ _ (IH l) Hss) Hpp) (cut (map sty_size (subs s l)) b 0) l); auto.
    2: { rewrite J2. now apply parts_ok. }
    rewrite (var_sizes _ Hss) in J3, J4. destruct (existsb is_variable (subs s l)) eqn:V; [auto|].
    rewrite (J4 eq_refl). rewrite <- (bytes_at_all b) at 2. f_equal.
    destruct s; try discriminate Hc; cbn [subs fills is_variable sty_size] in *.
    + cbn [solid] in Hs. rewrite !andb_true_iff in Hs. destruct Hs as [[Hn Hs] Hv]. destruct (solid_size s Hs) as [Sz Sv].
      apply negb_true_iff in Hv. rewrite Hv in Sv. symmetry in Sv. apply Z.eqb_neq in Sv.
      rewrite map_repeat, room_repeat by exact Sv. destruct Hf as [Hf ->]. f_equal. exact Hf.
    + cbn [solid] in Hs. destruct (solid_size s Hs) as [Sz Sv]. rewrite existsb_repeat in V. destruct (is_variable s).
      * destruct l; [now rewrite (Hf eq_refl)|discriminate V].
      * symmetry in Sv. apply Z.eqb_neq in Sv. rewrite map_repeat, room_repeat by exact Sv. symmetry. exact Hf.
    + rewrite existsb_map in V. rewrite V in Hl. destruct Hl as [Hl| ->]; [discriminate|].
      clear - Hss V. unfold fixed_room. rewrite !map_map. apply sumZ_ext_in. intros f Hf.
      rewrite Forall_map, Forall_forall in Hss. destruct (solid_size _ (Hss f Hf)) as [Sz Sv].
      destruct (is_variable (snd f)) eqn:V'.
      * assert (existsb (fun a => is_variable (snd a)) fields = true) by (apply existsb_exists; eauto). congruence.
      * destruct (Z.eqb_spec (sty_size (snd f)) 0); lia.
Qed.
Lemma fx_app a : forall c o, fx (a ++ c) o = fx a o ++ fx c (o + zlen (vr a)).
Proof.
  induction a as [|[[] p] a IH]; intros c o; cbn [app fx].
  - change (zlen (vr [])) with 0. now rewrite Z.add_0_r.
  - rewrite vr_cons, zlen_app, IH, Z.add_assoc. now rewrite app_assoc.
  - rewrite vr_cons, IH. cbn [app]. now rewrite app_assoc.
Qed.
Lemma series_swap es1 es2 : forall p q, zlen p = zlen q ->
  exists b1 b2, zlen b1 = fixed_len es1 /\
    ssz_series (es1 ++ (false, p) :: es2) = b1 ++ p ++ b2 /\ ssz_series (es1 ++ (false, q) :: es2) = b1 ++ q ++ b2.
Proof.
  intros p q E. rewrite !ssz_series_fx.
  assert (L : forall r, fixed_len (es1 ++ (false, r) :: es2) = fixed_len es1 + zlen r + fixed_len es2).
  { intros r. unfold fixed_len, fixed_lengths. rewrite map_app. cbn [map fst snd]. clear. induction es1 as [|[f x] es1 IH]; cbn [map app sumZ fold_right]; unfold sumZ in *; lia. }
  assert (V : forall r, vr (es1 ++ (false, r) :: es2) = vr es1 ++ vr es2).
  { intros r. unfold vr, variable_parts. rewrite map_app, concat_app. reflexivity. }
  rewrite !L, !V, !fx_app. cbn [fx]. rewrite E.
  exists (fx es1 (fixed_len es1 + zlen q + fixed_len es2)), (fx es2 (fixed_len es1 + zlen q + fixed_len es2 + zlen (vr es1)) ++ vr es1 ++ vr es2).
  split; [apply zlen_fx|]. rewrite <- !app_assoc. auto.
Qed.
Lemma acc_all_app ss1 : forall ss2 bs l, acc_all (ss1 ++ ss2) bs l <->
  exists bs1 bs2 l1 l2, bs = bs1 ++ bs2 /\ l = l1 ++ l2 /\ acc_all ss1 bs1 l1 /\ acc_all ss2 bs2 l2.
Proof.
  induction ss1 as [|s ss1 IH]; intros ss2 bs l; cbn [app].
  - split; [intros H; exists [], bs, [], l; cbn; auto|]. intros ([|z1 z2] & bs2 & [|z3 z4] & l2 & -> & -> & A & B); try destruct A. exact B.
  - destruct bs as [|b bs], l as [|v l]; cbn [acc_all].
    + split; [tauto|]. intros ([|z1 z2] & bs2 & [|z3 z4] & l2 & E1 & E2 & A & B); try discriminate; destruct A.
    + split; [tauto|]. intros ([|z1 z2] & bs2 & [|z3 z4] & l2 & E1 & E2 & A & B); try discriminate; destruct A.
    + split; [tauto|]. intros ([|z1 z2] & bs2 & [|z3 z4] & l2 & E1 & E2 & A & B); try discriminate; destruct A.
    + rewrite IH. split.
      * intros (A & bs1 & bs2 & l1 & l2 & -> & -> & B & C). exists (b :: bs1), bs2, (v :: l1), l2. cbn. auto.
      * intros ([|b' bs1] & bs2 & [|v' l1] & l2 & E1 & E2 & A & B); cbn [acc_all] in A; try contradiction.
        injection E1 as <- ->. injection E2 as <- ->. destruct A as [A C]. split; [exact A|]. exists bs1, bs2, l1, l2. auto.
Qed.
