(** The loops with [int] counters agree with those of the other models as long as the
    counters do not overflow. *)
From Coq Require Import ZArith String List Bool Lia.
From Verif Require Import Base SpecSSZ ModelMath ModelHashTree ModelSSZ ModelBytes ModelTree ModelYaml SpecObj SpecInt ModelInt
  LemBase LemTy LemBits.
Import ListNotations.
Open Scope Z_scope.

Ltac Zify.zify_post_hook ::= Z.to_euclidean_division_equations.

Lemma or_at_ok ret k x : (k < length ret)%nat ->
  or_at ret (Z.of_nat k) x = Ok (upd ret k (Z.lor (nth k ret 0) x)).
Proof.
  intros Hk. unfold or_at, zlen. rewrite Nat2Z.id.
  replace ((0 <=? Z.of_nat k) && (Z.of_nat k <? Z.of_nat (length ret))) with true by lia. reflexivity.
Qed.
Lemma pack_int l : forall i ret, (i + length l <= 8 * length ret)%nat ->
  pack_bits_int l (Z.of_nat i) ret =
  if Z.of_nat i + zlen l <? 2 ^ 31 then Ok (pack_bits l i ret) else if zlen l =? 0 then Ok ret else UB.
Proof.
  induction l as [|b l IH]; intros i ret Hl; cbn [pack_bits_int pack_bits].
  - destruct (_ <? _); reflexivity.
  - cbn [length] in Hl.
    replace (Z.of_nat i / 8) with (Z.of_nat (Nat.div i 8)) by lia.
    replace (Z.of_nat i mod 8) with (Z.of_nat (Nat.modulo i 8)) by lia.
    rewrite or_at_ok by lia. cbn [bind]. unfold int_add.
    rewrite zlen_cons. pose proof (zlen_nonneg l) as Hn.
    replace (1 + zlen l =? 0) with false by lia.
    destruct (Z.gtb_spec (Z.of_nat i + 1) (2 ^ 31 - 1)) as [G|G].
    + replace (Z.of_nat i + (1 + zlen l) <? 2 ^ 31) with false by lia. reflexivity.
    + cbn [bind]. replace (Z.of_nat i + 1) with (Z.of_nat (S i)) by lia.
      rewrite IH by (rewrite upd_length; lia).
      replace (Z.of_nat i + (1 + zlen l)) with (Z.of_nat (S i) + zlen l) by lia.
      destruct (Z.ltb_spec (Z.of_nat (S i) + zlen l) (2 ^ 31)); [reflexivity|].
      replace (zlen l =? 0) with false by lia. reflexivity.
Qed.
Lemma pack_int_0 l n : (length l <= 8 * n)%nat ->
  pack_bits_int l 0 (repeat 0 n) = if zlen l <? 2 ^ 31 then Ok (pack_bits l 0 (repeat 0 n)) else UB.
Proof.
  intros Hl. pose proof (pack_int l 0 (repeat 0 n)) as P. rewrite repeat_length in P. specialize (P Hl).
  cbn [Z.of_nat Z.add] in P. rewrite P. destruct (Z.ltb_spec (zlen l) (2 ^ 31)); [reflexivity|].
  replace (zlen l =? 0) with false by lia. reflexivity.
Qed.
Lemma pack_bits_length l : forall i ret, length (pack_bits l i ret) = length ret.
Proof. induction l; intros i ret; cbn [pack_bits]; [reflexivity|]. now rewrite IHl, upd_length. Qed.

Lemma mapM_if {A B} (f g : A -> outcome B) (p : A -> bool) l :
  Forall (fun a => f a = if p a then g a else UB) l -> Forall (fun a => g a <> Throw) l ->
  mapM f l = if forallb p l then mapM g l else UB.
Proof.
  induction 1 as [|a l E _ IH]; intros N; [reflexivity|]. inversion N as [|? ? N1 N2]; subst.
  cbn [mapM forallb]. rewrite E. destruct (p a); [|reflexivity]. cbn [andb].
  destruct (g a); cbn [bind]; [|easy|destruct (forallb p l); reflexivity].
  rewrite IH by assumption. destruct (forallb p l); reflexivity.
Qed.
Lemma mapM_Ok {A B} (g : A -> B) l : mapM (fun a => Ok (g a)) l = Ok (map g l).
Proof. apply mapM_map. reflexivity. Qed.

(** ** serialize *)
Lemma listv_raw p l : forall o os ret,
  listv_ser_loop (serialized 0) (map VBytes (map (vt_ser p) l)) o os ret = listv_ser_loop p l o os ret.
Proof. induction l as [|v l IH]; intros o os ret; cbn [map listv_ser_loop]; [reflexivity|]. cbn [serialized vt_ser bytes_serialize]. apply IH. Qed.
Definition raw (pv : vtable * val) : vtable * val := (serialized (vt_size (fst pv)), VBytes (vt_ser (fst pv) (snd pv))).
Lemma raw_loop ps : forall n ret var, serialize_loop (map raw ps) n ret var = serialize_loop ps n ret var.
Proof. induction ps as [|[p v] ps IH]; intros n ret var; cbn [map raw serialize_loop fst snd serialized vt_ser vt_size bytes_serialize]; [reflexivity|]. now rewrite !IH. Qed.
Lemma raw_fixed ps : compute_fixed_length (map fst (map raw ps)) = compute_fixed_length (map fst ps).
Proof.
  unfold compute_fixed_length. generalize 0 at 2 4. induction ps as [|[p v] ps IH]; intros z; [reflexivity|].
  cbn [map fold_left raw fst snd serialized vt_size]. apply IH.
Qed.
Lemma raw_serialize ps : serialize_ (map raw ps) = serialize_ ps.
Proof. destruct ps as [|p ps]; [reflexivity|]. unfold serialize_. rewrite <- (raw_fixed (p :: ps)). cbn [map]. change (raw p :: map raw ps) with (map raw (p :: ps)). apply raw_loop. Qed.

Lemma class_index (fs : list ty) (obj : list val) (q : val -> bool) :
  Forall2 (fun t v => serialize_int t v = if q v then Ok (serialize t v) else UB) fs obj ->
  forall fs0 obj0, length fs0 = length obj0 ->
  mapM (fun k => let (size, m) := nth k (map (fun t' => (get_ssz_size t', serialize_int t')) (fs0 ++ fs)) (0, fun _ => UB) in
      let* s := m (nth k (obj0 ++ obj) (VSeq [])) in Ok (serialized size, VBytes s)) (seq (length fs0) (length fs))
  = if forallb q obj then Ok (map raw (pick_ser (map vt (fs0 ++ fs)) (obj0 ++ obj) (seq (length fs0) (length fs)))) else UB.
Proof.
  induction 1 as [|t v fs obj E _ IH]; intros fs0 obj0 L; [reflexivity|].
  cbn [length seq mapM forallb]. unfold pick_ser. cbn [map].
  rewrite !map_app. rewrite !app_nth2 by (rewrite ?map_length; lia). rewrite !map_length, L, !Nat.sub_diag.
  cbn [map nth]. rewrite E. destruct (q v); [|reflexivity]. cbn [bind andb].
  specialize (IH (fs0 ++ [t]) (obj0 ++ [v])). rewrite !app_length in IH. cbn [length] in IH. specialize (IH ltac:(lia)).
  replace (length fs0 + 1)%nat with (S (length obj0)) in IH by lia. rewrite <- !app_assoc in IH. cbn [app] in IH.
  unfold pick_ser in IH. rewrite !map_app in IH. cbn [map] in IH. rewrite IH. destruct (forallb q obj); reflexivity.
Qed.

Lemma serialize_int_eq t : wf t = true -> forall v, wt t v ->
  serialize_int t v = if short_bits v then Ok (serialize t v) else UB.
Proof.
  induction t using ty_ind'; intros Hw v Hv; destruct v; cbn [wt] in Hv; try contradiction; try reflexivity.
  - cbn [serialize_int short_bits]. unfold bitvector_serialize_int. rewrite pack_int_0; [reflexivity|].
    unfold BITS_PER_BYTE, zlen in *. lia.
  - cbn [serialize_int short_bits]. unfold bitlist_serialize_int. rewrite pack_int_0 by lia.
    destruct (zlen l <? 2 ^ 31); [|reflexivity]. cbn [bind].
    unfold serialize. cbn [vt vt_ser]. unfold bitlist_serialize.
    set (ret := pack_bits _ _ _). assert (Hr : length ret = (Nat.div (length l) 8 + 1)%nat).
    { unfold ret. now rewrite pack_bits_length, repeat_length. }
    replace (zlen ret - 1) with (Z.of_nat (length ret - 1)) by (unfold zlen; lia).
    rewrite or_at_ok by lia. replace (zlen l mod 8) with (Z.of_nat (Nat.modulo (length l) 8)) by (unfold zlen; lia). reflexivity.
  - cbn [wf] in Hw. rewrite !andb_true_iff in Hw. destruct Hw as [[Hw _] _]. destruct Hv as [_ Hv].
    cbn [serialize_int short_bits]. rewrite (mapM_if _ (fun v => Ok (serialize t v)) short_bits).
    + rewrite mapM_Ok. destruct (forallb _ _); reflexivity.
    + rewrite Forall_forall in *. intros a Ha. auto.
    + now apply Forall_forall.
  - cbn [wf] in Hw. rewrite !andb_true_iff in Hw. destruct Hw as [Hw _].
    cbn [serialize_int short_bits]. rewrite (mapM_if _ (fun v => Ok (serialize t v)) short_bits).
    + rewrite mapM_Ok. destruct (forallb _ _); reflexivity.
    + rewrite Forall_forall in *. intros a Ha. auto.
    + now apply Forall_forall.
  - cbn [wf] in Hw. rewrite !andb_true_iff in Hw. destruct Hw as [Hw _].
    cbn [serialize_int short_bits]. rewrite (mapM_if _ (fun v => Ok (serialize t v)) short_bits).
    + rewrite mapM_Ok. destruct (forallb _ _); [|reflexivity]. cbn [bind]. unfold serialize. cbn [vt vt_ser].
      unfold listv_serialize. change (fun a => vt_ser (vt t) a) with (vt_ser (vt t)). rewrite listv_raw.
      unfold zlen. now rewrite !map_length.
    + rewrite Forall_forall in *. intros a Ha. auto.
    + now apply Forall_forall.
  - pose proof (wf_class _ _ Hw) as []. apply all2_Forall2 in Hv. cbn [serialize_int short_bits].
    assert (F : Forall2 (fun t v => serialize_int t v = if short_bits v then Ok (serialize t v) else UB) fs l).
    { clear - H Hv cw_fields. induction Hv; inversion H; inversion cw_fields; subst; constructor; auto. }
    rewrite cw_ser. pose proof (class_index fs l short_bits F [] [] eq_refl) as C. cbn [app length] in C. rewrite C.
    destruct (forallb short_bits l); [|reflexivity]. cbn [bind]. rewrite raw_serialize.
    unfold serialize. cbn [vt vt_ser class_serialize]. now rewrite cw_ser.
Qed.

(** ** hash_tree_root *)
Section Hash.
Variable HB : list chunk -> list chunk.

Lemma bind_no_throw {A B} (m : outcome A) (f : A -> outcome B) :
  m <> Throw -> (forall a, f a <> Throw) -> bind m f <> Throw.
Proof. destruct m; cbn; auto. discriminate. Qed.
Lemma read_no_throw {A} (l : list A) i : read l i <> Throw.
Proof. unfold read. destruct (_ && _); [|discriminate]. destruct (nth_error _ _); discriminate. Qed.
Lemma write_no_throw {A} (l : list A) i c : write l i c <> Throw.
Proof. unfold write. destruct (_ && _); discriminate. Qed.
Lemma from_no_throw dst o src i c : hash_blocks_from HB dst o src i c <> Throw.
Proof. apply bind_no_throw; [apply slice_not_throw|intros; apply write_no_throw]. Qed.
Lemma layers_no_throw fuel : forall buf f l h, merkle_layers HB fuel buf f l h <> Throw.
Proof.
  induction fuel; intros buf f l h; cbn [merkle_layers]; destruct (_ >? _); try discriminate.
  apply bind_no_throw.
  - unfold hash_blocks_in. destruct (_ || _); [apply from_no_throw|discriminate].
  - intros b. apply bind_no_throw; [unfold check_iter; destruct (_ && _); discriminate|]. intros _.
    apply bind_no_throw; [|intros; apply IHfuel]. destruct (_ =? _); [discriminate|].
    apply bind_no_throw; [apply read_no_throw|]. intros c. apply bind_no_throw; [apply read_no_throw|].
    intros z. apply write_no_throw.
Qed.
Lemma extend_no_throw fuel : forall buf l h d, merkle_extend HB fuel buf l h d <> Throw.
Proof.
  induction fuel; intros buf l h d; cbn [merkle_extend]; destruct (_ <? _); try discriminate.
  apply bind_no_throw; [apply read_no_throw|]. intros c. apply bind_no_throw; [apply read_no_throw|]. intros z.
  apply bind_no_throw; [apply write_no_throw|]. intros b. apply IHfuel.
Qed.
Lemma tree_no_throw chunks limit : chunks <> [] -> HashTree HB chunks limit <> Throw.
Proof.
  intros Hc. unfold HashTree. destruct (_ && _); [discriminate|]. destruct chunks; [easy|]. unfold merkleize.
  apply bind_no_throw; [unfold check_iter; destruct (_ && _); discriminate|]. intros _.
  apply bind_no_throw; [destruct (_ >? _); [apply from_no_throw|discriminate]|]. intros b1.
  apply bind_no_throw.
  { destruct (_ =? _); [discriminate|]. apply bind_no_throw; [apply read_no_throw|]. intros c. apply write_no_throw. }
  intros b2. apply bind_no_throw; [apply layers_no_throw|]. intros [[b3 last] h].
  apply bind_no_throw; [apply extend_no_throw|]. intros [b4 l4]. discriminate.
Qed.
Lemma back_no_throw t : back t <> Throw.
Proof. apply read_no_throw. Qed.
Lemma mix_no_throw t n : mix_in HB t n <> Throw.
Proof. apply bind_no_throw; [apply back_no_throw|discriminate]. Qed.
Lemma pack_nonempty b : pack_and_pad b <> [].
Proof. destruct b; discriminate. Qed.
Lemma root_no_throw t : t <> Throw -> root_of t <> Throw.
Proof. intros Ht. apply bind_no_throw; [exact Ht|intros; apply back_no_throw]. Qed.
Lemma list_no_throw limit roots : list_hash_tree HB limit roots <> Throw.
Proof. apply bind_no_throw; [apply tree_no_throw; destruct roots; discriminate|intros; apply mix_no_throw]. Qed.
Lemma mapM_no_throw {A B} (f : A -> outcome B) l : Forall (fun a => f a <> Throw) l -> mapM f l <> Throw.
Proof. induction 1; cbn [mapM]; [discriminate|]. apply bind_no_throw; [assumption|]. intros b. apply bind_no_throw; [assumption|discriminate]. Qed.

Lemma class_roots (fs : list ty) (obj : list val) (q : val -> bool) (f g : ty -> val -> outcome (list chunk)) :
  Forall2 (fun t v => root_of (f t v) = (if q v then root_of (g t v) else UB) /\ g t v <> Throw) fs obj ->
  forall fs0 obj0, length fs0 = length obj0 ->
  mapM (fun k => root_of (nth k (map f (fs0 ++ fs)) (fun _ => UB) (nth k (obj0 ++ obj) (VSeq [])))) (seq (length fs0) (length fs))
  = (if forallb q obj
     then mapM (fun k => root_of (nth k (map g (fs0 ++ fs)) (fun _ => UB) (nth k (obj0 ++ obj) (VSeq [])))) (seq (length fs0) (length fs))
     else UB) /\
  mapM (fun k => root_of (nth k (map g (fs0 ++ fs)) (fun _ => UB) (nth k (obj0 ++ obj) (VSeq [])))) (seq (length fs0) (length fs)) <> Throw.
Proof.
  induction 1 as [|t v fs obj [E N] _ IH]; intros fs0 obj0 L; [split; [reflexivity|discriminate]|].
  cbn [length seq mapM forallb].
  specialize (IH (fs0 ++ [t]) (obj0 ++ [v])). rewrite !app_length in IH. cbn [length] in IH. specialize (IH ltac:(lia)).
  replace (length fs0 + 1)%nat with (S (length fs0)) in IH by lia. rewrite <- !app_assoc in IH. cbn [app] in IH.
  destruct IH as [IH1 IH2]. rewrite IH1. clear IH1.
  set (rest := mapM _ (seq (S (length fs0)) _)) in *. clearbody rest.
  rewrite !map_app. rewrite !app_nth2 by (rewrite ?map_length; lia). rewrite !map_length, L, !Nat.sub_diag.
  cbn [map nth]. rewrite E. pose proof (root_no_throw _ N) as R. destruct (root_of (g t v)); [|easy|].
  - split.
    + destruct (q v); [|reflexivity]. cbn [bind andb]. destruct (forallb q obj); reflexivity.
    + apply bind_no_throw; [discriminate|]. intros b. apply bind_no_throw; [exact IH2|discriminate].
  - split; [|discriminate]. destruct (q v); [|reflexivity]. cbn [andb bind]. destruct (forallb q obj); reflexivity.
Qed.

Lemma wt_basic t v : basic_object t = true -> wt t v -> short_bits v = true.
Proof. destruct t; try discriminate. destruct v; try contradiction. reflexivity. Qed.
Lemma hash_int_eq t : wf t = true -> forall v, wt t v ->
  root_of (hash_tree_int HB t v) = (if short_bits v then root_of (hash_tree HB t v) else UB) /\ hash_tree HB t v <> Throw.
Proof.
  induction t using ty_ind'; intros Hw v Hv; pose proof Hv as Hv0; destruct v; cbn [wt] in Hv; try contradiction.
  - split; [reflexivity|]. apply tree_no_throw, pack_nonempty.
  - split; [reflexivity|discriminate].
  - split; [reflexivity|]. apply tree_no_throw, pack_nonempty.
  - split; [|apply tree_no_throw, pack_nonempty]. cbn [hash_tree_int hash_tree]. rewrite serialize_int_eq by assumption.
    destruct (short_bits _); reflexivity.
  - cbn [hash_tree_int hash_tree short_bits]. unfold bitlist_hash_tree_int, bitlist_hash_tree.
    split; [|apply bind_no_throw; [apply tree_no_throw, pack_nonempty|intros; apply mix_no_throw]].
    rewrite pack_int_0 by lia. destruct (_ <? _); reflexivity.
  - pose proof Hw as Hw0. cbn [wf] in Hw. rewrite !andb_true_iff in Hw. destruct Hw as [[Hw Hn] _]. destruct Hv as [Hl Hv].
    cbn [hash_tree_int hash_tree]. destruct (basic_object t) eqn:Eb.
    + split; [|apply tree_no_throw, pack_nonempty]. rewrite serialize_int_eq by assumption. destruct (short_bits _); reflexivity.
    + assert (N : Forall (fun a => root_of (hash_tree HB t a) <> Throw) l).
      { rewrite Forall_forall in *. intros a Ha. apply root_no_throw, IHt; auto. }
      cbn [short_bits]. rewrite (mapM_if _ (fun e => root_of (hash_tree HB t e)) short_bits); [|rewrite Forall_forall in *; intros a Ha; apply IHt; auto|exact N].
      split; [destruct (forallb _ _); reflexivity|].
      pose proof (mapM_no_throw _ l N) as M. destruct (mapM _ l) as [cs| |] eqn:E; [|easy|discriminate].
      cbn [bind]. destruct (n =? 1); [discriminate|]. apply tree_no_throw. apply mapM_ok in E. apply Forall2_len in E.
      destruct l; [cbn in Hl; lia|]. destruct cs; [discriminate E|discriminate].
  - pose proof Hw as Hw0. cbn [wf] in Hw. rewrite !andb_true_iff in Hw. destruct Hw as [Hw _].
    cbn [hash_tree_int hash_tree]. destruct (basic_object t) eqn:Eb.
    + split; [|apply bind_no_throw; [apply tree_no_throw, pack_nonempty|intros; apply mix_no_throw]].
      rewrite serialize_int_eq by assumption. destruct (short_bits _); reflexivity.
    + assert (N : Forall (fun a => root_of (hash_tree HB t a) <> Throw) l).
      { rewrite Forall_forall in *. intros a Ha. apply root_no_throw, IHt; auto. }
      cbn [short_bits]. rewrite (mapM_if _ (fun e => root_of (hash_tree HB t e)) short_bits); [|rewrite Forall_forall in *; intros a Ha; apply IHt; auto|exact N].
      split; [destruct (forallb _ _); reflexivity|].
      apply bind_no_throw; [now apply mapM_no_throw|intros; apply list_no_throw].
  - cbn [wf] in Hw. rewrite !andb_true_iff in Hw. destruct Hw as [Hw _].
    cbn [hash_tree_int hash_tree].
    assert (N : Forall (fun a => root_of (hash_tree HB t a) <> Throw) l).
    { rewrite Forall_forall in *. intros a Ha. apply root_no_throw, IHt; auto. }
    cbn [short_bits]. rewrite (mapM_if _ (fun e => root_of (hash_tree HB t e)) short_bits); [|rewrite Forall_forall in *; intros a Ha; apply IHt; auto|exact N].
    split; [destruct (forallb _ _); reflexivity|].
    apply bind_no_throw; [now apply mapM_no_throw|intros; apply list_no_throw].
  - pose proof (wf_class _ _ Hw) as []. apply all2_Forall2 in Hv. cbn [hash_tree_int hash_tree short_bits].
    assert (F : Forall2 (fun t v => root_of (hash_tree_int HB t v) = (if short_bits v then root_of (hash_tree HB t v) else UB) /\ hash_tree HB t v <> Throw) fs l).
    { clear - H Hv cw_fields. induction Hv; inversion H; inversion cw_fields; subst; constructor; auto. }
    destruct (class_roots fs l short_bits _ _ F [] [] eq_refl) as [C1 C2]. cbn [app length] in C1, C2.
    rewrite cw_hash. destruct fs as [|f fs]; [easy|]. cbn [length seq] in *. rewrite C1.
    split; [destruct (forallb short_bits l); reflexivity|].
    match goal with |- bind ?m _ <> Throw => change (m <> Throw) in C2; destruct m as [cs| |] eqn:E end; [|easy|discriminate].
    cbn [bind]. apply tree_no_throw. apply mapM_ok in E. inversion E. discriminate.
Qed.
Lemma root_int_eq t v : wf t = true -> wt t v ->
  hash_tree_root_int HB t v = if short_bits v then hash_tree_root HB t v else UB.
Proof. intros Hw Hv. exact (proj1 (hash_int_eq t Hw v Hv)). Qed.
End Hash.

(** ** decode *)
Lemma hex_int s : forall o, (length s mod 2 = 0)%nat -> o + zlen s < 2 ^ 31 -> hex_pairs_int s o = hex_pairs s.
Proof.
  intros o. remember (length s) as n eqn:En. revert s o En. induction n as [n IH] using lt_wf_ind. intros s o En Hm Hl.
  destruct s as [|a [|b s]]; [reflexivity|reflexivity|]. cbn [hex_pairs_int hex_pairs].
  destruct (hextoint a); [|reflexivity|reflexivity]. destruct (hextoint b); [|reflexivity|reflexivity]. cbn [bind].
  rewrite !zlen_cons in Hl. pose proof (zlen_nonneg s). unfold int_add.
  replace (o + 2 >? 2 ^ 31 - 1) with false by lia. cbn [bind].
  cbn [length] in En. rewrite (IH (length s)); [reflexivity|lia|reflexivity| |lia].
  rewrite En in Hm. replace (S (S (length s))) with (length s + 1 * 2)%nat in Hm by lia. now rewrite Nat.mod_add in Hm by lia.
Qed.
Lemma hex_int_long s : forall o, o < 2 ^ 31 -> 2 ^ 31 <= o + zlen s -> zlen s mod 2 = 0 -> hex_pairs_int s o = UB.
Proof.
  intros o. remember (length s) as n eqn:En. revert s o En. induction n as [n IH] using lt_wf_ind. intros s o En Ho Hl Hm.
  destruct s as [|a [|b s]]; [cbn in Hl; lia|reflexivity|]. cbn [hex_pairs_int].
  assert (Hex : forall c, hextoint c <> Throw) by (intros c; unfold hextoint; destruct (_ && _); discriminate).
  pose proof (Hex a). pose proof (Hex b).
  destruct (hextoint a); [|easy|reflexivity]. destruct (hextoint b); [|easy|reflexivity]. cbn [bind].
  unfold int_add. destruct (Z.gtb_spec (o + 2) (2 ^ 31 - 1)) as [G|G]; [reflexivity|]. cbn [bind].
  rewrite !zlen_cons in *. cbn [length] in En. rewrite (IH (length s)); [reflexivity|lia|reflexivity|lia|lia|].
  replace (1 + (1 + zlen s)) with (zlen s + 1 * 2) in Hm by lia. now rewrite Z.mod_add in Hm by lia.
Qed.
Lemma hex_pairs_length s : forall l, hex_pairs s = Ok l -> zlen s = 2 * zlen l.
Proof.
  remember (length s) as n eqn:En. revert s En. induction n as [n IH] using lt_wf_ind. intros s En l E.
  destruct s as [|a [|b s]]; [injection E as <-; reflexivity|discriminate|]. cbn [hex_pairs] in E.
  apply bind_ok in E as (x & _ & E). apply bind_ok in E as (y & _ & E). apply bind_ok in E as (r & E & F).
  injection F as <-. cbn [length] in En. apply (IH (length s) ltac:(lia) s eq_refl) in E. rewrite !zlen_cons. lia.
Qed.
Lemma bv_int n b : forall i arr, 0 <= i -> i + zlen b <= 2 ^ 29 -> bv_outer_int n b i arr = Ok (bv_outer n b i arr).
Proof.
  induction b as [|x b IH]; intros i arr Hi Hl; [reflexivity|]. cbn [bv_outer_int bv_outer]. rewrite zlen_cons in Hl.
  pose proof (zlen_nonneg b). unfold int_add. replace (i + 1 >? 2 ^ 31 - 1) with false by lia. cbn [bind].
  rewrite IH by lia. unfold u32. rewrite Z.mod_small by lia. replace (8 * i / 8) with i by lia. reflexivity.
Qed.
Lemma skip2 s : prefix_0x s = true -> zlen (skipn 2 s) = zlen s - 2.
Proof. destruct s as [|a [|b s]]; try discriminate. intros _. cbn [skipn]. rewrite !zlen_cons. lia. Qed.
Lemma even_skip s : prefix_0x s = true -> zlen s mod 2 = 0 -> (length (skipn 2 s) mod 2 = 0)%nat.
Proof. intros P M. pose proof (skip2 s P). unfold zlen in *. lia. Qed.
Lemma bitlist_text_int v s : zlen s < 2 ^ 31 -> bitlist_from_hexstring_int v s = bitlist_from_hexstring v s.
Proof.
  intros Hs. unfold bitlist_from_hexstring_int, bitlist_from_hexstring. destruct (prefix_0x s) eqn:P; [|reflexivity]. cbn [negb].
  destruct (Z.eqb_spec (zlen s mod 2) 0) as [M|M]; [|reflexivity]. cbn [negb].
  rewrite hex_int; [reflexivity|now apply even_skip|rewrite skip2 by exact P; lia].
Qed.
Lemma bitvector_text_int n v s : zlen s <= 2 ^ 30 + 2 -> bitvector_from_hexstring_int n v s = bitvector_from_hexstring n v s.
Proof.
  intros Hs. unfold bitvector_from_hexstring_int, bitvector_from_hexstring. destruct (prefix_0x s) eqn:P; [|reflexivity]. cbn [negb].
  destruct (Z.eqb_spec (zlen s mod 2) 0) as [M|M]; [|reflexivity]. cbn [negb].
  pose proof (skip2 s P) as L. rewrite hex_int; [|now apply even_skip|lia].
  destruct (hex_pairs _) as [h| |] eqn:E; [|reflexivity|reflexivity]. cbn [bind].
  apply hex_pairs_length in E. rewrite bv_int by lia. reflexivity.
Qed.

Lemma mapM_ext {A B} (f g : A -> outcome B) l : Forall (fun a => f a = g a) l -> mapM f l = mapM g l.
Proof. induction 1 as [|a l E _ IH]; [reflexivity|]. cbn [mapM]. now rewrite E, IH. Qed.
Lemma get_short l name n : forallb (fun p : string * ynode => short_texts (snd p)) l = true -> ymap_get l name = Ok n -> short_texts n = true.
Proof.
  induction l as [|[k y] l IH]; [discriminate|]. cbn [forallb snd ymap_get]. intros F G. apply andb_true_iff in F as [F1 F2].
  destruct (String.eqb k name); [congruence|auto].
Qed.
Lemma yget_short node name n : short_texts node = true -> yget node name = Ok n -> short_texts n = true.
Proof. destruct node; try discriminate. cbn [short_texts yget]. apply get_short. Qed.
Lemma default_int e t : y_default (yvt_int e t) = y_default (yvt e t).
Proof. destruct t; reflexivity. Qed.
Lemma decode_int_eq e t : forall v node, short_texts node = true -> decode_int e t v node = decode e t v node.
Proof.
  unfold decode_int, decode.
  induction t using ty_ind'; intros v node Hs; try reflexivity.
  - cbn [yvt_int yvt y_decode]. unfold bitvector_decode. destruct node; try reflexivity. cbn [scalar_decode short_texts] in *.
    rewrite bitvector_text_int by lia. reflexivity.
  - cbn [yvt_int yvt y_decode]. unfold bitlist_decode. destruct node; try reflexivity. cbn [scalar_decode short_texts] in *.
    rewrite bitlist_text_int by lia. reflexivity.
  - cbn [yvt_int yvt y_decode]. unfold array_decode. destruct node; try reflexivity. destruct (negb _); [reflexivity|].
    rewrite (mapM_ext _ (as_T (yvt e t))); [reflexivity|]. cbn [short_texts] in Hs. rewrite forallb_forall in Hs.
    apply Forall_forall. intros x Hx. unfold as_T. rewrite default_int, IHt by auto. reflexivity.
  - cbn [yvt_int yvt y_decode]. unfold vec_decode. destruct node; try reflexivity.
    rewrite (mapM_ext _ (as_T (yvt e t))); [reflexivity|]. cbn [short_texts] in Hs. rewrite forallb_forall in Hs.
    apply Forall_forall. intros x Hx. unfold as_T. rewrite default_int, IHt by auto. reflexivity.
  - cbn [yvt_int yvt y_decode]. unfold vec_decode. destruct node; try reflexivity.
    rewrite (mapM_ext _ (as_T (yvt e t))); [reflexivity|]. cbn [short_texts] in Hs. rewrite forallb_forall in Hs.
    apply Forall_forall. intros x Hx. unfold as_T. rewrite default_int, IHt by auto. reflexivity.
  - cbn [yvt_int yvt y_decode]. destruct v; try reflexivity.
    assert (D : forall parts obj, decode_ (map (yvt_int e) fs) node parts obj = decode_ (map (yvt e) fs) node parts obj).
    { induction parts as [|[name i] parts IH]; intros obj; [reflexivity|]. cbn [decode_].
      destruct (yget node name) as [n| |] eqn:G; [|reflexivity|reflexivity]. cbn [bind].
      pose proof (yget_short _ _ _ Hs G) as Hn.
      assert (E : forall x, y_decode (nth i (map (yvt_int e) fs) {| y_default := VNum 0; y_encode := fun _ => YSeq []; y_decode := fun _ _ => UB |}) x n
        = y_decode (nth i (map (yvt e) fs) {| y_default := VNum 0; y_encode := fun _ => YSeq []; y_decode := fun _ _ => UB |}) x n).
      { intros x. destruct (Nat.lt_ge_cases i (length fs)) as [L|L].
        - rewrite (nth_indep _ _ (yvt_int e TSlot)) by (now rewrite map_length).
          rewrite (nth_indep (map (yvt e) fs) _ (yvt e TSlot)) by (now rewrite map_length).
          rewrite !map_nth. rewrite Forall_forall in H. apply H; [|exact Hn]. now apply nth_In.
        - rewrite !nth_overflow by (now rewrite map_length). reflexivity. }
      rewrite E. destruct (y_decode _ _ _) as [[ok w]| |]; [|reflexivity|reflexivity]. cbn [bind]. destruct ok; [apply IH|reflexivity]. }
    rewrite D. reflexivity.
Qed.
Lemma bitlist_decode_int e limit v s :
  decode_int e (TBitlist limit) v (YScalar s) =
  if zlen s <? 2 ^ 31 then decode e (TBitlist limit) v (YScalar s)
  else if prefix_0x s && (zlen s mod 2 =? 0) then UB else Throw.
Proof.
  unfold decode_int, decode. cbn [yvt_int yvt y_decode]. unfold bitlist_decode. cbn [scalar_decode].
  destruct (Z.ltb_spec (zlen s) (2 ^ 31)) as [L|L]; [now rewrite bitlist_text_int|].
  unfold bitlist_from_hexstring_int. destruct (prefix_0x s) eqn:P; [|reflexivity]. cbn [negb andb].
  destruct (Z.eqb_spec (zlen s mod 2) 0) as [M|M]; [|reflexivity]. cbn [negb].
  pose proof (skip2 s P). rewrite hex_int_long; [reflexivity|lia|lia|]. rewrite H.
  replace (zlen s - 2) with (zlen s + (-1) * 2) by lia. now rewrite Z.mod_add by lia.
Qed.
