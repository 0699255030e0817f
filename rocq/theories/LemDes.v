(** The container deserialization loop: successful runs are characterised by the
    byte ranges handed to the parts. *)
From Coq Require Import ZArith String List Bool Lia.
From Coq Require Import ZifyBool ZifyNat.
From Verif Require Import Base SpecSSZ ModelSSZ LemBase LemBits LemSer.
Import ListNotations.
Open Scope Z_scope.
Ltac Zify.zify_post_hook ::= Z.div_mod_to_equations.

(** [ranges b F sizes it lo hi rs]: reading the fixed part from [it], when the
    last variable part seen starts at [lo] (0: none), that part ends at [hi] and
    the parts of the given sizes occupy the ranges [rs]. *)
Inductive ranges (b : list Z) (F : Z) : list Z -> Z -> Z -> Z -> list (Z * Z) -> Prop :=
| r_nil it lo : ranges b F [] it lo (zlen b) []
| r_fix s r it lo hi rs :
    s <> 0 -> it + s <= zlen b ->
    ranges b F r (it + s) lo hi rs ->
    ranges b F (s :: r) it lo hi ((it, it + s) :: rs)
| r_var r it lo hi rs w :
    slice b it (it + 4) = Ok w ->
    le_val w <= zlen b -> (lo = 0 -> le_val w = F) -> lo <= le_val w ->
    ranges b F r (it + 4) (le_val w) hi rs ->
    ranges b F (0 :: r) it lo (le_val w) ((le_val w, hi) :: rs).

Definition number (k : nat) (ps : list vtable) : list (nat * vtable) :=
  combine (seq k (length ps)) ps.
Lemma number_cons k p ps : number k (p :: ps) = (k, p) :: number (S k) ps.
Proof. reflexivity. Qed.
Lemma pick_des_number vts : pick_des vts (seq 0 (length vts)) = number 0 vts.
Proof.
  assert (G : forall pre, map (fun k => (k, nth k (pre ++ vts) null_vtable))
                              (seq (length pre) (length vts)) = number (length pre) vts).
  { induction vts as [|p vts IH]; intros pre; auto.
    cbn [length seq map]. rewrite number_cons.
    rewrite app_nth2, Nat.sub_diag by lia. cbn [nth]. f_equal.
    specialize (IH (pre ++ [p])). rewrite <- app_assoc in IH. cbn [app] in IH.
    rewrite app_length in IH. cbn [length] in IH.
    replace (length pre + 1)%nat with (S (length pre)) in IH by lia. exact IH. }
  exact (G []).
Qed.

(** One part decodes its range from the value it held. *)
Definition decodes (b : list Z) (p : vtable) (old : val) (ij : Z * Z) (v : val) : Prop :=
  exists s, slice b (fst ij) (snd ij) = Ok s /\ vt_des p old s = Ok (true, v).

Lemma call_des_true p k obj b i j obj' d : (k < length obj)%nat ->
  (call_des p k obj b i j = Ok (true, obj') <->
   exists v, decodes b p (nth k obj d) (i, j) v /\ obj' = upd obj k v).
Proof.
  intros Hk. unfold call_des, decodes. cbn [fst snd].
  rewrite (nth_indep obj d (vt_default p)) by auto.
  split.
  - intros E. apply bind_ok in E as (s & Es & E). apply bind_ok in E as ([ok v] & Ev & [= -> <-]).
    eauto.
  - intros (v & (s & Es & Ev) & ->). rewrite Es. cbn [bind]. rewrite Ev. reflexivity.
Qed.

Definition dv : val := VSeq [].

(** Decoding of the parts [ps] stored from index [k] on. *)
Fixpoint decode_all (b : list Z) (ps : list vtable) (olds : list val) (rs : list (Z * Z))
         (vs : list val) : Prop :=
  match ps, olds, rs, vs with
  | [], [], [], [] => True
  | p :: ps', o :: os', r :: rs', v :: vs' =>
      decodes b p o r v /\ decode_all b ps' os' rs' vs'
  | _, _, _, _ => False
  end.

Lemma slice_nonneg_read b it w : slice b it (it + 4) = Ok w -> bytes_ok b ->
  0 <= le_val w < 2 ^ 32.
Proof.
  intros E Hb. pose proof (slice_bytes_ok _ _ _ _ Hb E) as Hw.
  apply slice_inv in E as (_ & _ & _ & L).
  pose proof (le_val_bound _ Hw) as B. replace (zlen w) with 4 in B by lia. exact B.
Qed.

(** State of the object: [pre] are the parts already handled, except the
    pending one whose range is not known yet. *)
Lemma deserialize_loop_true b F (Hb : bytes_ok b) (HF : F <> 0) ps :
  Forall (fun p => 0 <= vt_size p) ps ->
  forall it lo last pre olds obj',
  0 <= it ->
  length olds = length ps ->
  match last with
  | None => lo = 0
  | Some (kp, _) => lo <> 0 /\ (kp < length pre)%nat
  end ->
  (deserialize_loop b F (number (length pre) ps) it lo last (pre ++ olds) = Ok (true, obj')
   <->
   exists hi rs vs,
     ranges b F (map vt_size ps) it lo hi rs /\
     decode_all b ps olds rs vs /\
     match last with
     | None => obj' = pre ++ vs
     | Some (kp, pp) => exists v, decodes b pp (nth kp pre dv) (lo, hi) v /\
                                  obj' = upd pre kp v ++ vs
     end).
Proof.
  intros Hsz. induction Hsz as [|p ps Hp Hsz IH]; intros it lo last pre olds obj' Hit Hlen Hlast.
  - destruct olds; [|discriminate]. cbn [number length seq combine deserialize_loop map].
    rewrite app_nil_r. destruct last as [[kp pp]|].
    + destruct Hlast as [Hlo Hkp]. replace (lo =? 0) with false by lia.
      rewrite (call_des_true _ _ _ _ _ _ _ dv) by auto. split.
      * intros (v & Hd & ->). exists (zlen b), [], []. split; [constructor|].
        split; [exact I|]. exists v. now rewrite app_nil_r.
      * intros (hi & rs & vs & Hr & Ha & v & Hd & ->). inversion Hr; subst.
        destruct vs; [|destruct Ha]. exists v. now rewrite app_nil_r.
    + subst lo. cbn [Z.eqb]. split.
      * intros [= <-]. exists (zlen b), [], []. split; [constructor|]. split; [exact I|].
        now rewrite app_nil_r.
      * intros (hi & rs & vs & Hr & Ha & ->). inversion Hr; subst.
        destruct vs; [|destruct Ha]. now rewrite app_nil_r.
  - destruct olds as [|o olds]; [discriminate|]. injection Hlen as Hlen.
    rewrite number_cons. cbn [deserialize_loop map].
    assert (Hk : (length pre < length (pre ++ o :: olds))%nat)
      by (rewrite app_length; cbn [length]; lia).
    assert (Hnth : nth (length pre) (pre ++ o :: olds) dv = o).
    { rewrite app_nth2, Nat.sub_diag by lia. reflexivity. }
    destruct (Z.eqb_spec (vt_size p) 0) as [Hz|Hz]; cbn [negb].
    + (* variable part *)
      rewrite Hz. unfold BYTES_PER_LENGTH_OFFSET in *.
      destruct (Z.ltb_spec (zlen b - it) 4) as [Hsh|Hsh].
      { split; [discriminate|]. intros (hi & rs & vs & Hr & _).
        inversion Hr; subst; [lia|].
        match goal with H : slice b it _ = Ok _ |- _ => apply slice_inv in H end. lia. }
      destruct (slice b it (it + 4)) as [w| |] eqn:Ew.
      2:{ now apply slice_not_throw in Ew. }
      2:{ rewrite slice_ok in Ew by lia. discriminate. }
      cbn [bind]. pose proof (slice_nonneg_read _ _ _ Ew Hb) as Hw.
      destruct (Z.ltb_spec (zlen b) (le_val w)) as [Hover|Hin].
      { split; [discriminate|]. intros (hi & rs & vs & Hr & _).
        inversion Hr; subst; [lia|]. replace w0 with w in * by congruence. lia. }
      assert (IHs : forall pre', length pre' = length pre ->
         le_val w <> 0 ->
        (deserialize_loop b F (number (S (length pre)) ps) (it + 4) (le_val w)
           (Some (length pre, p)) (pre' ++ o :: olds) = Ok (true, obj') <->
         exists hi rs vs, ranges b F (map vt_size ps) (it + 4) (le_val w) hi rs /\
           decode_all b ps olds rs vs /\
           exists v, decodes b p o (le_val w, hi) v /\ obj' = pre' ++ v :: vs)).
      { intros pre' Hpre' Hw0.
        specialize (IH (it + 4) (le_val w) (Some (length pre, p)) (pre' ++ [o]) olds obj').
        rewrite app_length in IH. cbn [length] in IH. rewrite Hpre' in IH.
        replace (length pre + 1)%nat with (S (length pre)) in IH by lia.
        rewrite <- app_assoc in IH. cbn [app] in IH. rewrite IH by (auto; lia).
        assert (N : nth (length pre) (pre' ++ [o]) dv = o).
        { rewrite app_nth2, Hpre', Nat.sub_diag by lia. reflexivity. }
        assert (U : forall v, upd (pre' ++ [o]) (length pre) v = pre' ++ [v]).
        { intros v. rewrite <- Hpre', <- (Nat.add_0_r (length pre')), upd_app_r. reflexivity. }
        split; intros (hi & rs & vs & Hr & Ha & v & Hd & E); exists hi, rs, vs;
          repeat split; auto; exists v; rewrite N, U, <- app_assoc in *; split; auto. }
      destruct last as [[kp pp]|].
      * destruct Hlast as [Hlo Hkp]. replace (lo =? 0) with false by lia. cbn [negb].
        destruct (Z.ltb_spec (le_val w) lo) as [Hdec|Hinc].
        { split; [discriminate|]. intros (hi & rs & vs & Hr & _).
          inversion Hr; subst; [lia|]. replace w0 with w in * by congruence. lia. }
        split.
        -- intros E. apply bind_ok in E as ([ok obj1] & E1 & E2). destruct ok; [|discriminate].
           apply (call_des_true _ _ _ _ _ _ _ dv) in E1;
             [|rewrite app_length; cbn [length]; lia].
           destruct E1 as (v1 & Hd1 & ->).
           rewrite app_nth1 in Hd1 by auto. rewrite upd_app_l in E2 by auto.
           assert (Hlo0 : 0 <= lo).
           { destruct Hd1 as (s & Hs & _). apply slice_inv in Hs. cbn [fst] in Hs. lia. }
           apply IHs in E2; [|apply upd_length|lia].
           destruct E2 as (hi & rs & vs & Hr & Ha & v & Hd & ->).
           exists (le_val w), ((le_val w, hi) :: rs), (v :: vs). split.
           { apply r_var; auto; lia. }
           cbn [decode_all]. split; [split; auto|]. exists v1. split; auto.
        -- intros (hi & rs & vs & Hr & Ha & v1 & Hd1 & ->).
           inversion Hr as [|? ? ? ? ? ? Hc|? ? ? hi' rs' w0 Ew0 H1 H2 H3 H4]; subst; [easy|].
           replace w0 with w in * by congruence. clear Ew0.
           destruct vs as [|v vs]; [destruct Ha|]. cbn [decode_all] in Ha. destruct Ha as [Hd Ha].
           assert (C : call_des pp kp (pre ++ o :: olds) b lo (le_val w)
                       = Ok (true, upd pre kp v1 ++ o :: olds)).
           { apply (call_des_true _ _ _ _ _ _ _ dv); [rewrite app_length; cbn [length]; lia|].
             exists v1. rewrite app_nth1 by auto. split; auto.
             now rewrite upd_app_l. }
           assert (Hlo0 : 0 <= lo).
           { destruct Hd1 as (s & Hs & _). apply slice_inv in Hs. cbn [fst] in Hs. lia. }
           rewrite C. cbn [bind]. apply IHs; [apply upd_length|lia|].
           exists hi', rs', vs. repeat split; auto. exists v. split; auto.
      * subst lo. cbn [Z.eqb negb].
        destruct (Z.eqb_spec (le_val w) F) as [HeF|HneF]; cbn [negb].
        -- rewrite IHs by (auto; congruence). split.
           ++ intros (hi & rs & vs & Hr & Ha & v & Hd & ->).
              exists (le_val w), ((le_val w, hi) :: rs), (v :: vs). split.
              { apply r_var; auto; lia. }
              cbn [decode_all]. auto.
           ++ intros (hi & rs & vs & Hr & Ha & ->).
              inversion Hr as [|? ? ? ? ? ? Hc|? ? ? hi' rs' w0 Ew0 H1 H2 H3 H4]; subst; [easy|].
              replace w0 with w in * by congruence. clear Ew0.
              destruct vs as [|v vs]; [destruct Ha|]. cbn [decode_all] in Ha.
              destruct Ha as [Hd Ha]. exists hi', rs', vs. repeat split; auto. exists v. auto.
        -- split; [discriminate|]. intros (hi & rs & vs & Hr & _).
           inversion Hr; subst; [lia|]. replace w0 with w in * by congruence. tauto.
    + (* fixed part *)
      destruct (Z.ltb_spec (zlen b - it) (vt_size p)) as [Hsh|Hsh].
      { split; [discriminate|]. intros (hi & rs & vs & Hr & _). inversion Hr; subst; [lia|congruence]. }
      assert (IHs : forall v,
        (deserialize_loop b F (number (S (length pre)) ps) (it + vt_size p) lo last
            (pre ++ v :: olds) = Ok (true, obj') <->
         exists hi rs vs, ranges b F (map vt_size ps) (it + vt_size p) lo hi rs /\
           decode_all b ps olds rs vs /\
           match last with
           | None => obj' = pre ++ v :: vs
           | Some (kp, pp) => exists v', decodes b pp (nth kp pre dv) (lo, hi) v' /\
                                         obj' = upd pre kp v' ++ v :: vs
           end)).
      { intros v. specialize (IH (it + vt_size p) lo last (pre ++ [v]) olds obj').
        rewrite app_length in IH. cbn [length] in IH.
        replace (length pre + 1)%nat with (S (length pre)) in IH by lia.
        rewrite <- app_assoc in IH. cbn [app] in IH. rewrite IH; clear IH; [|lia|auto|].
        2:{ destruct last as [[kp pp]|]; auto. split; [tauto|lia]. }
        split; intros (hi & rs & vs & Hr & Ha & E); exists hi, rs, vs; repeat split; auto;
          destruct last as [[kp pp]|].
        - destruct E as (v' & Hd & ->). exists v'. destruct Hlast as [_ Hkp].
          rewrite app_nth1 in Hd by auto. rewrite upd_app_l, <- app_assoc by auto. auto.
        - now rewrite <- app_assoc in E.
        - destruct E as (v' & Hd & ->). exists v'. destruct Hlast as [_ Hkp].
          rewrite app_nth1 by auto. rewrite upd_app_l, <- app_assoc by auto. auto.
        - now rewrite <- app_assoc. }
      assert (U : forall v, upd (pre ++ o :: olds) (length pre) v = pre ++ v :: olds).
      { intros v. rewrite <- (Nat.add_0_r (length pre)), upd_app_r. reflexivity. }
      split.
      * intros E. apply bind_ok in E as ([ok obj1] & E1 & E2). destruct ok; [|discriminate].
        apply (call_des_true _ _ _ _ _ _ _ dv) in E1; auto. destruct E1 as (v & Hd & ->).
        rewrite Hnth in Hd. rewrite U in E2. apply IHs in E2.
        destruct E2 as (hi & rs & vs & Hr & Ha & E).
        exists hi, ((it, it + vt_size p) :: rs), (v :: vs).
        split; [apply r_fix; auto; lia|]. cbn [decode_all]. auto.
      * intros (hi & rs & vs & Hr & Ha & E).
        inversion Hr as [|? ? ? ? ? rs' Hc H1 H2|]; subst; [|congruence].
        destruct vs as [|v vs]; [destruct Ha|]. cbn [decode_all] in Ha. destruct Ha as [Hd Ha].
        assert (C : call_des p (length pre) (pre ++ o :: olds) b it (it + vt_size p)
                    = Ok (true, pre ++ v :: olds)).
        { apply (call_des_true _ _ _ _ _ _ _ dv); auto. exists v. rewrite Hnth, U. auto. }
        rewrite C. cbn [bind]. apply IHs. exists hi, rs', vs. auto.
Qed.

(** Whole container. *)
Lemma deserialize_true b ps olds obj' :
  bytes_ok b -> Forall (fun p => 0 <= vt_size p) ps -> ps <> [] ->
  vt_fixed ps < 2 ^ 32 -> length olds = length ps ->
  (deserialize_ b (number 0 ps) olds = Ok (true, obj') <->
   exists hi rs, ranges b (vt_fixed ps) (map vt_size ps) 0 0 hi rs /\
                 decode_all b ps olds rs obj').
Proof.
  intros Hb Hsz Hne Hsm Hlen. unfold deserialize_.
  assert (M : map snd (number 0 ps) = ps).
  { unfold number. generalize 0%nat. clear. induction ps; intros k; cbn; auto. f_equal. apply IHps. }
  assert (HF : 0 < vt_fixed ps).
  { destruct Hsz as [|p ps Hp Hsz]; [easy|]. unfold vt_fixed. cbn [map sumZ fold_right].
    assert (0 <= sumZ (map (fun p => if vt_size p =? 0 then 4 else vt_size p) ps)).
    { clear - Hsz. induction Hsz; cbn [map sumZ fold_right]; [lia|].
      unfold sumZ in *. destruct (Z.eqb_spec (vt_size x) 0); lia. }
    unfold sumZ in *. destruct (Z.eqb_spec (vt_size p) 0); lia. }
  rewrite M, compute_fixed_length_eq. unfold u32. rewrite Z.mod_small by lia.
  pose proof (deserialize_loop_true b (vt_fixed ps) Hb ltac:(lia) ps Hsz 0 0 None [] olds obj'
                ltac:(lia) Hlen eq_refl) as E.
  cbn [app length] in E. rewrite E. split.
  - intros (hi & rs & vs & Hr & Ha & ->). eauto.
  - intros (hi & rs & Hr & Ha). eauto 6.
Qed.
