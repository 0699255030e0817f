(** Serialization loops produce the series layout of the SSZ specification. *)
From Coq Require Import ZArith String List Bool Lia.
From Coq Require Import ZifyBool ZifyNat.
From Verif Require Import Base SpecSSZ ModelSSZ LemBase LemBits.
Import ListNotations.
Open Scope Z_scope.
Ltac Zify.zify_post_hook ::= Z.div_mod_to_equations.

Notation part := (bool * list Z)%type.

(** Fixed parts, with offsets starting at [o]. *)
Fixpoint fx (es : list part) (o : Z) : list Z :=
  match es with
  | [] => []
  | (true, s) :: r => le_bytes 4 o ++ fx r (o + zlen s)
  | (false, s) :: r => s ++ fx r o
  end.
Definition vr (es : list part) : list Z := concat (variable_parts es).
Definition fixed_len (es : list part) : Z := sumZ (fixed_lengths es).

Lemma vr_cons b s r : vr ((b, s) :: r) = (if b then s else []) ++ vr r.
Proof. reflexivity. Qed.
Lemma fixed_len_cons b s r : fixed_len ((b, s) :: r) = (if b then 4 else zlen s) + fixed_len r.
Proof. reflexivity. Qed.
Lemma fixed_len_nonneg es : 0 <= fixed_len es.
Proof.
  induction es as [|[b s] r IH]; [cbn; lia|]. rewrite fixed_len_cons.
  pose proof (zlen_nonneg s). destruct b; lia.
Qed.
Lemma zlen_fx es o : zlen (fx es o) = fixed_len es.
Proof.
  revert o; induction es as [|[[] s] r IH]; intros o; cbn [fx]; [reflexivity| |];
    rewrite fixed_len_cons; autorewrite with zlen; rewrite IH; lia.
Qed.

Lemma le_bytes4_u32 x : le_bytes 4 (u32 x) = le_bytes 4 x.
Proof. unfold u32. exact (le_bytes_mod 4 x). Qed.
Lemma fx_mod es : forall o, fx es (u32 o) = fx es o.
Proof.
  induction es as [|[[] s] r IH]; intros o; cbn [fx]; auto.
  - rewrite le_bytes4_u32. f_equal. rewrite <- (IH (u32 o + _)), <- (IH (o + _)).
    f_equal. unfold u32. now rewrite Zplus_mod_idemp_l.
  - now rewrite IH.
Qed.
Lemma fx_congr es o o' : u32 o = u32 o' -> fx es o = fx es o'.
Proof. intros E. now rewrite <- (fx_mod es o), E, fx_mod. Qed.

(** The specification's series in recursive form. *)
Lemma concat_map_fixed_part es : forall pre,
  concat (map (fixed_part (pre ++ es)) (seq (length pre) (length es)))
  = fx es (sumZ (fixed_lengths (pre ++ es)) + zlen (vr pre)).
Proof.
  induction es as [|[b s] r IH]; intros pre; cbn [length seq map concat fx]; auto.
  assert (N : nth (length pre) (pre ++ (b, s) :: r) (false, []) = (b, s)).
  { rewrite app_nth2, Nat.sub_diag by lia. reflexivity. }
  assert (O : offset_of (pre ++ (b, s) :: r) (length pre)
              = sumZ (fixed_lengths (pre ++ (b, s) :: r)) + zlen (vr pre)).
  { unfold offset_of. f_equal. unfold variable_lengths, variable_parts, vr, variable_parts.
    rewrite !map_app, firstn_app, !map_length, Nat.sub_diag. cbn [firstn].
    rewrite app_nil_r, firstn_all2 by (rewrite !map_length; lia).
    clear. induction pre as [|[b s] pre IH]; cbn [map concat sumZ fold_right]; auto.
    rewrite zlen_app. unfold sumZ in *. lia. }
  specialize (IH (pre ++ [(b, s)])).
  rewrite <- app_assoc in IH. cbn [app] in IH. rewrite app_length in IH. cbn [length] in IH.
  replace (length pre + 1)%nat with (S (length pre)) in IH by lia.
  unfold fixed_part at 1. rewrite N. cbn [fst snd]. rewrite IH, O.
  assert (V : zlen (vr (pre ++ [(b, s)])) = zlen (vr pre) + if b then zlen s else 0).
  { unfold vr, variable_parts. rewrite map_app, concat_app, zlen_app.
    cbn [map concat fst snd]. rewrite app_nil_r. destruct b; reflexivity. }
  rewrite V. destruct b; f_equal; f_equal; lia.
Qed.
Lemma ssz_series_fx es : ssz_series es = fx es (fixed_len es) ++ vr es.
Proof.
  unfold ssz_series. f_equal. pose proof (concat_map_fixed_part es []) as E. cbn [app length] in E.
  rewrite E. f_equal. unfold fixed_len. change (zlen (vr [])) with 0. lia.
Qed.
Lemma ssz_series_fixed es : Forall (fun e : part => fst e = false) es ->
  ssz_series es = concat (map snd es).
Proof.
  intros Hf. rewrite ssz_series_fx.
  assert (forall o, fx es o ++ vr es = concat (map snd es)); auto.
  intros o. induction Hf as [|[b s] r Hb _ IH]; auto. cbn [fst] in Hb. subst b. cbn [fx map concat snd].
  rewrite vr_cons, <- app_assoc. cbn [app]. now rewrite IH.
Qed.

(** Model loops. *)
Definition es_of (parts : list (vtable * val)) : list part :=
  map (fun pv : vtable * val => (vt_size (fst pv) =? 0, vt_ser (fst pv) (snd pv))) parts.

Lemma serialize_loop_fx parts : forall F ret var,
  serialize_loop parts F ret var = ret ++ fx (es_of parts) F ++ var ++ vr (es_of parts).
Proof.
  induction parts as [|[p v] r IH]; intros F ret var; cbn [serialize_loop es_of map fst snd].
  - cbn. now rewrite app_nil_r.
  - fold (es_of r). rewrite vr_cons. destruct (vt_size p =? 0); cbn [fx]; rewrite IH.
    + rewrite (fx_congr _ _ (F + zlen (vt_ser p v))).
      * now rewrite <- !app_assoc.
      * unfold u32. rewrite Zplus_mod_idemp_r, Zmod_mod. reflexivity.
    + now rewrite <- !app_assoc.
Qed.

Definition vt_fixed (ps : list vtable) : Z :=
  sumZ (map (fun p => if vt_size p =? 0 then 4 else vt_size p) ps).
Lemma compute_fixed_length_eq ps : compute_fixed_length ps = u32 (vt_fixed ps).
Proof.
  assert (G : forall a, fold_left (fun ret p => if vt_size p =? 0
     then u32 (ret + BYTES_PER_LENGTH_OFFSET) else u32 (ret + u32 (vt_size p))) ps (u32 a)
     = u32 (a + vt_fixed ps)).
  { induction ps as [|p r IH]; intros a; cbn [fold_left].
    - f_equal. unfold vt_fixed. cbn. lia.
    - unfold vt_fixed in *. cbn [map sumZ fold_right].
      change (fold_right Z.add 0) with sumZ.
      destruct (vt_size p =? 0); unfold BYTES_PER_LENGTH_OFFSET.
      + replace (u32 (u32 a + 4)) with (u32 (a + 4)).
        * rewrite IH. f_equal. unfold sumZ. lia.
        * unfold u32. now rewrite Zplus_mod_idemp_l.
      + replace (u32 (u32 a + u32 (vt_size p))) with (u32 (a + vt_size p)).
        * rewrite IH. f_equal. unfold sumZ. lia.
        * unfold u32. now rewrite <- Zplus_mod. }
  exact (G 0).
Qed.

(** Serialization of a container, provided the fixed-size parts have their
    declared size. *)
Lemma serialize_series parts :
  Forall (fun pv : vtable * val => vt_size (fst pv) <> 0 ->
            zlen (vt_ser (fst pv) (snd pv)) = vt_size (fst pv)) parts ->
  vt_fixed (map fst parts) = fixed_len (es_of parts) /\
  serialize_ parts = ssz_series (es_of parts).
Proof.
  intros Hl.
  assert (E : vt_fixed (map fst parts) = fixed_len (es_of parts)).
  { induction Hl as [|[p v] r Hp _ IH]; auto.
    cbn [es_of map fst snd] in *. fold (es_of r). rewrite fixed_len_cons, <- IH.
    unfold vt_fixed. cbn [map sumZ fold_right]. f_equal.
    destruct (Z.eqb_spec (vt_size p) 0); auto. symmetry; auto. }
  split; auto. rewrite ssz_series_fx. destruct parts as [|pv r]; auto.
  unfold serialize_. rewrite serialize_loop_fx, compute_fixed_length_eq, E. cbn [app].
  now rewrite fx_mod.
Qed.

Lemma listv_ser_loop_fx p l : forall o offs ret,
  listv_ser_loop p l o offs ret
  = offs ++ fx (map (fun v => (true, vt_ser p v)) l) o ++ ret
         ++ vr (map (fun v => (true, vt_ser p v)) l).
Proof.
  induction l as [|v r IH]; intros o offs ret; cbn [listv_ser_loop map fx].
  - cbn. now rewrite app_nil_r.
  - rewrite vr_cons, IH, fx_mod, <- !app_assoc. reflexivity.
Qed.
Lemma fixed_len_true {A} (f : A -> list Z) l :
  fixed_len (map (fun v => (true, f v)) l) = 4 * zlen l.
Proof.
  induction l; [reflexivity|]. cbn [map]. rewrite fixed_len_cons, IHl, zlen_cons. lia.
Qed.
Lemma listv_serialize_series p l :
  listv_serialize p (VSeq l) = ssz_series (map (fun v => (true, vt_ser p v)) l).
Proof.
  unfold listv_serialize. rewrite listv_ser_loop_fx, ssz_series_fx, fixed_len_true, fx_mod.
  unfold BYTES_PER_LENGTH_OFFSET. cbn [app]. now rewrite Z.mul_comm.
Qed.
Lemma concat_serialize_series p l :
  concat_serialize p (VSeq l) = ssz_series (map (fun v => (false, vt_ser p v)) l).
Proof.
  rewrite ssz_series_fixed.
  - unfold concat_serialize. now rewrite map_map.
  - apply Forall_forall. intros e He. apply in_map_iff in He as (v & <- & _). reflexivity.
Qed.
