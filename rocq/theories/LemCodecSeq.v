(** Vectors and lists, then all classes. *)
From Coq Require Import ZArith String List Bool Lia.
From Coq Require Import ZifyBool ZifyNat.
From Verif Require Import Base SpecSSZ ModelSSZ SpecObj LemBase LemBits LemTy LemSer LemDes LemCodec.
Import ListNotations.
Open Scope Z_scope.
Ltac Zify.zify_post_hook ::= Z.div_mod_to_equations.

(** Ranges of [n] consecutive parts of size [s], from position [i]. *)
Fixpoint cr (s i : Z) (n : nat) : list (Z * Z) :=
  match n with O => [] | S n' => (i, i + s) :: cr s (i + s) n' end.

Lemma cr_sizes p i n : Forall2 (fun p (r : Z * Z) => vt_size p = 0 \/ snd r - fst r = vt_size p)
                               (repeat p n) (cr (vt_size p) i n).
Proof. revert i; induction n; intros i; cbn; constructor; auto. right; cbn; lia. Qed.

Lemma slices_cr_concat b s : forall n i (parts : list (list Z)), slices b (cr s i n) parts -> 0 <= i <= zlen b -> 0 <= s ->
  slice b i (i + Z.of_nat n * s) = Ok (concat parts).
Proof.
  induction n; intros i parts Hs Hi Hp; cbn [cr] in Hs; inversion Hs; subst; cbn [concat].
  - rewrite slice_ok by lia. now replace (i + Z.of_nat 0 * s - i) with 0 by lia.
  - cbn [fst snd] in *. pose proof (slice_inv _ _ _ _ H1) as (? & ? & _ & _).
    apply IHn in H3; [|lia|lia].
    replace (i + Z.of_nat (S n) * s) with (i + s + Z.of_nat n * s) by lia.
    eapply slice_concat; eauto.
Qed.
Lemma concat_slices_cr s : forall (parts : list (list Z)) pre post,
  Forall (fun d : list Z => zlen d = s) parts ->
  slices (pre ++ concat parts ++ post) (cr s (zlen pre) (length parts)) parts.
Proof.
  induction parts as [|d parts IH]; intros pre post Hd; cbn [length cr concat]; constructor;
    inversion Hd; subst.
  - cbn [fst snd]. rewrite <- app_assoc. apply slice_app3; auto.
  - specialize (IH (pre ++ d) post H2). rewrite <- !app_assoc in IH. rewrite zlen_app in IH.
    now rewrite <- app_assoc.
Qed.

Lemma sers_repeat p vs : sers (repeat p (length vs)) vs = map (vt_ser p) vs.
Proof. unfold sers. induction vs; cbn [length repeat combine map fst snd]; auto. f_equal. exact IHvs. Qed.
Lemma holds_repeat (W : val -> Prop) vs : holds (repeat W (length vs)) vs <-> Forall W vs.
Proof.
  split.
  - induction vs; cbn; intros Hh; constructor; inversion Hh; auto.
  - induction 1; cbn; constructor; auto.
Qed.
Lemma holds_repeat_inv (W : val -> Prop) n vs : holds (repeat W n) vs -> length vs = n /\ Forall W vs.
Proof.
  intros Hh. pose proof (Forall2_len _ _ _ Hh) as L. rewrite repeat_length in L. subst n.
  split; auto. now apply holds_repeat.
Qed.
Lemma Forall2_nth_repeat (W : val -> Prop) v n : W v -> holds (repeat W n) (repeat v n).
Proof. intros; induction n; cbn; constructor; auto. Qed.
Lemma gooda_repeat s p W n : good s p W -> gooda s (repeat p n) (repeat W n).
Proof. intros; induction n; cbn; constructor; auto. Qed.
Lemma canonical_repeat p W n : canonical p W -> Forall2 canonical (repeat p n) (repeat W n).
Proof. intros; induction n; cbn; constructor; auto. Qed.

(** *** Vectors *)
Lemma vector_des_loop_true p b : forall arr i vs,
  vector_des_loop p b i arr = Ok (true, vs) <->
  decode_all b (repeat p (length arr)) arr (cr (vt_size p) (i * vt_size p) (length arr)) vs.
Proof.
  induction arr as [|o arr IH]; intros i vs; cbn [vector_des_loop length repeat cr decode_all].
  - destruct vs; split; intros E; try discriminate; try destruct E; auto.
  - replace (i * vt_size p + vt_size p) with ((i + 1) * vt_size p) by lia. split.
    + intros E. apply bind_ok in E as (s & Es & E). apply bind_ok in E as ([ok v] & Ev & E).
      destruct ok; [|discriminate]. apply bind_ok in E as ([ok' r] & Er & E).
      injection E as -> <-. apply IH in Er. split; auto. exists s; auto.
    + destruct vs as [|v vs]; [tauto|]. intros [(s & Es & Ev) Hd]. cbn [fst snd] in Es.
      rewrite Es. cbn [bind]. rewrite Ev. cbn [bind]. apply IH in Hd. rewrite Hd. reflexivity.
Qed.
Lemma vector_des_loop_ok safe p W b : good safe p W -> bytes_ok b -> forall arr i,
  Forall W arr -> 0 <= i -> (i + zlen arr) * vt_size p <= zlen b ->
  match vector_des_loop p b i arr with
  | Ok (_, arr') => Forall W arr' /\ length arr' = length arr
  | UB => safe = false
  | Throw => False
  end.
Proof.
  intros G Hb. induction arr as [|o arr IH]; intros i Hw Hi Hl; cbn [vector_des_loop].
  - auto.
  - inversion Hw; subst. rewrite zlen_cons in Hl. pose proof (g_size _ _ _ G). pose proof (zlen_nonneg arr).
    destruct (slice b (i * vt_size p) ((i + 1) * vt_size p)) as [s| |] eqn:Es.
    2,3: rewrite slice_ok in Es by nia; discriminate.
    cbn [bind]. pose proof (g_res _ _ _ G o s ltac:(auto) ltac:(eapply slice_bytes_ok; eauto)) as R.
    unfold res_ok in R. destruct (vt_des p o s) as [[r v]| |]; cbn [bind]; auto.
    destruct r; [|split; [constructor; auto|reflexivity]].
    specialize (IH (i + 1) ltac:(auto) ltac:(lia) ltac:(lia)).
    destruct (vector_des_loop p b (i + 1) arr) as [[r' arr']| |]; cbn [bind]; auto.
    destruct IH. split; [constructor; auto|cbn; lia].
Qed.

Section Vector.
Variables (safe : bool) (p : vtable) (W : val -> Prop) (n : Z).
Hypothesis G : good safe p W.
Hypothesis Hn : 0 < n.
Hypothesis Hs : 0 < vt_size p.
Definition vector_vt : vtable :=
  {| vt_size := n * vt_size p; vt_default := VSeq (repeat (vt_default p) (Z.to_nat n));
     vt_ser := concat_serialize p; vt_des := vector_deserialize p n |}.
Definition vector_W (v : val) : Prop :=
  match v with VSeq l => zlen l = n /\ Forall W l | _ => False end.

Lemma concat_lens l : Forall W l -> Forall (fun d => zlen d = vt_size p) (map (vt_ser p) l).
Proof. intros Hl. apply Forall_map. eapply Forall_impl; [|exact Hl]. intros v Hv. eapply g_len; eauto. lia. Qed.
Lemma zlen_concat s (l : list (list Z)) : Forall (fun d => zlen d = s) l -> zlen (concat l) = zlen l * s.
Proof.
  induction 1; [reflexivity|]. cbn [concat]. rewrite zlen_app, zlen_cons, IHForall. lia.
Qed.
Lemma concat_bytes_ok l : Forall W l -> bytes_ok (concat (map (vt_ser p) l)).
Proof.
  induction 1; cbn [map concat]; [apply Forall_nil|]. apply Forall_app. split; auto. eapply g_ok; eauto.
Qed.
Lemma vector_des_true l b v : zlen l = n ->
  (vector_deserialize p n (VSeq l) b = Ok (true, v) <->
   zlen b = n * vt_size p /\ exists vs, v = VSeq vs /\
   decode_all b (repeat p (length l)) l (cr (vt_size p) 0 (length l)) vs).
Proof.
  intros Hl. unfold vector_deserialize.
  destruct (Z.eqb_spec (zlen b) (n * vt_size p)) as [E|E]; cbn [negb].
  - pose proof (vector_des_loop_true p b l 0) as T. cbn [Z.mul] in T. split.
    + intros Ed. apply bind_ok in Ed as ([ok a] & Ea & [= -> <-]). split; auto. exists a.
      split; auto. now apply T.
    + intros (_ & vs & -> & Hd). apply T in Hd. rewrite Hd. reflexivity.
  - split; [discriminate|]. intros [? _]; tauto.
Qed.
Lemma good_vector : good safe vector_vt vector_W.
Proof.
  constructor; cbn [vector_vt vt_size vt_default vt_ser vt_des].
  - nia.
  - cbn [vector_W]. rewrite zlen_repeat. split; [lia|]. apply Forall_forall.
    intros x Hx. apply repeat_spec in Hx. subst. eapply g_def; eauto.
  - intros [| | | |l]; cbn [vector_W]; try tauto. intros [Hl Hw] _. cbn [concat_serialize].
    rewrite (zlen_concat (vt_size p)) by now apply concat_lens. rewrite zlen_map. lia.
  - intros [| | | |l]; cbn [vector_W]; try tauto. intros [Hl Hw]. now apply concat_bytes_ok.
  - intros [| | | |l] [| | | |o]; cbn [vector_W]; try tauto. intros [Hl Hw] [Ho Hwo] Hlt.
    cbn [concat_serialize] in *. apply vector_des_true; auto.
    rewrite (zlen_concat (vt_size p)) by now apply concat_lens. rewrite zlen_map. split; [lia|].
    exists l. split; auto. replace (length o) with (length l) by (unfold zlen in *; lia).
    eapply decode_all_rt; [exact Hlt|apply gooda_repeat; eauto| | |].
    + replace (length l) with (length o) by (unfold zlen in *; lia). now apply holds_repeat.
    + now apply holds_repeat.
    + rewrite sers_repeat.
      pose proof (concat_slices_cr (vt_size p) (map (vt_ser p) l) [] [] (concat_lens l Hw)) as C.
      cbn [app] in C. rewrite app_nil_r, map_length in C. exact C.
  - intros [| |xb| |o1] [| |xc| |o2] b v; cbn [vector_W]; try tauto. intros [Hl1 Hw1] [Hl2 Hw2] Hb E.
    apply vector_des_true in E; auto. destruct E as (Hz & vs & -> & Hd).
    apply vector_des_true; auto. split; auto. exists vs. split; auto.
    replace (length o2) with (length o1) by (unfold zlen in *; lia).
    eapply decode_all_hist; [exact Hb|apply gooda_repeat; eauto| | |exact Hd].
    + now apply holds_repeat.
    + replace (length o1) with (length o2) by (unfold zlen in *; lia). now apply holds_repeat.
  - intros [| |xb| |o] b; cbn [vector_W]; try tauto. intros [Hl Hw] Hb. unfold vector_deserialize.
    destruct (Z.eqb_spec (zlen b) (n * vt_size p)) as [E|E]; cbn [negb res_ok vector_W]; auto.
    pose proof (vector_des_loop_ok safe p W b G Hb o 0 Hw ltac:(lia) ltac:(nia)) as R.
    destruct (vector_des_loop p b 0 o) as [[r a]| |]; cbn [bind res_ok]; auto. cbn [vector_W].
    destruct R. split; auto. unfold zlen in *. lia.
Qed.
Lemma canonical_vector : canonical p W -> canonical vector_vt vector_W.
Proof.
  intros Hc [| |xb| |o] b v; cbn [vector_vt vector_W vt_size vt_ser vt_des]; try tauto.
  intros [Hl Hw] Hb _ E. apply vector_des_true in E; auto. destruct E as (Hz & vs & -> & Hd).
  pose proof (decode_all_length _ _ _ _ _ Hd) as (_ & _ & Lv). rewrite repeat_length in Lv.
  assert (Sl : slices b (cr (vt_size p) 0 (length o)) (sers (repeat p (length o)) vs)).
  { eapply decode_all_canon; [exact Hb|apply canonical_repeat; exact Hc| |exact Hd|apply cr_sizes].
    now apply holds_repeat. }
  rewrite <- Lv in Sl at 2. rewrite sers_repeat in Sl.
  apply slices_cr_concat in Sl; [|pose proof (zlen_nonneg b); lia|lia].
  cbn [Z.add] in Sl. fold (zlen o) in Sl. rewrite Hl, <- Hz, slice_full in Sl.
  cbn [concat_serialize]. now injection Sl.
Qed.
End Vector.

(** *** Lists of fixed-size parts *)
Section ListF.
Variables (safe : bool) (p : vtable) (W : val -> Prop).
Hypothesis G : good safe p W.
Hypothesis Hs : 0 < vt_size p.
Definition listf_vt : vtable :=
  {| vt_size := 0; vt_default := VSeq [];
     vt_ser := concat_serialize p; vt_des := listf_deserialize p |}.
Definition list_W (v : val) : Prop := match v with VSeq l => Forall W l | _ => False end.

Lemma listf_des_loop_true b : forall n fuel i arr arr',
  zlen b = i + Z.of_nat n * vt_size p -> 0 <= i -> (n <= fuel)%nat ->
  (listf_des_loop fuel p b i arr = Ok (true, arr') <->
   exists vs, arr' = arr ++ vs /\
     decode_all b (repeat p n) (repeat (vt_default p) n) (cr (vt_size p) i n) vs).
Proof.
  induction n; intros fuel i arr arr' Hz Hi Hf; cbn [repeat cr decode_all].
  - replace (listf_des_loop fuel p b i arr) with (@Ok (bool * list val) (true, arr)).
    2:{ destruct fuel; cbn [listf_des_loop]; replace (i =? zlen b) with true by lia; auto. }
    split.
    + intros [= <-]. exists []. now rewrite app_nil_r.
    + intros ([|] & -> & H); [now rewrite app_nil_r|destruct H].
  - destruct fuel as [|fuel]; [lia|]. cbn [listf_des_loop].
    replace (i =? zlen b) with false by nia. split.
    + intros E. apply bind_ok in E as (s & Es & E). apply bind_ok in E as ([ok v] & Ev & E).
      destruct ok; [|discriminate]. apply IHn in E; [|lia|lia|lia].
      destruct E as (vs & -> & Hd). exists (v :: vs). rewrite <- app_assoc. cbn [app]. split; auto.
      split; auto. exists s. auto.
    + intros ([|v vs] & -> & H); [destruct H|]. destruct H as [(s & Es & Ev) Hd]. cbn [fst snd] in Es.
      rewrite Es. cbn [bind]. rewrite Ev. cbn [bind]. apply IHn; [lia|lia|lia|].
      exists vs. rewrite <- app_assoc. auto.
Qed.
Lemma listf_des_true o b v : (listf_deserialize p o b = Ok (true, v) <->
   exists n vs, zlen b = Z.of_nat n * vt_size p /\ v = VSeq vs /\
   decode_all b (repeat p n) (repeat (vt_default p) n) (cr (vt_size p) 0 n) vs).
Proof.
  unfold listf_deserialize. replace (vt_size p =? 0) with false by lia.
  pose proof (zlen_nonneg b) as Hz.
  destruct (Z.eqb_spec (zlen b mod vt_size p) 0) as [E|E]; cbn [negb].
  - set (n := Z.to_nat (zlen b / vt_size p)).
    assert (Hn : zlen b = Z.of_nat n * vt_size p).
    { unfold n. rewrite Z2Nat.id by (apply Z.div_pos; lia).
      pose proof (Z.div_mod (zlen b) (vt_size p)). lia. }
    pose proof (fun a => listf_des_loop_true b n (length b) 0 [] a Hn ltac:(lia)
                  ltac:(unfold zlen in *; nia)) as T.
    split.
    + intros Ed. apply bind_ok in Ed as ([ok a] & Ea & [= -> <-]). apply T in Ea.
      destruct Ea as (vs & -> & Hd). exists n, vs. auto.
    + intros (n' & vs & Hn' & -> & Hd). assert (n' = n) by nia. subst n'.
      assert (E2 : listf_des_loop (length b) p b 0 [] = Ok (true, vs)) by (apply T; exists vs; auto).
      rewrite E2. reflexivity.
  - split; [discriminate|]. intros (n & vs & Hn & _). rewrite Hn, Z.mod_mul in E by lia. tauto.
Qed.
Lemma listf_des_loop_ok b : bytes_ok b -> forall n fuel i arr,
  zlen b = i + Z.of_nat n * vt_size p -> 0 <= i -> (n <= fuel)%nat -> Forall W arr ->
  match listf_des_loop fuel p b i arr with
  | Ok (_, arr') => Forall W arr'
  | UB => safe = false
  | Throw => False
  end.
Proof.
  intros Hb. induction n; intros fuel i arr Hz Hi Hf Ha.
  - destruct fuel; cbn [listf_des_loop]; replace (i =? zlen b) with true by lia; auto.
  - destruct fuel as [|fuel]; [lia|]. cbn [listf_des_loop].
    replace (i =? zlen b) with false by nia.
    destruct (slice b i (i + vt_size p)) as [s| |] eqn:Es.
    2,3: rewrite slice_ok in Es by nia; discriminate.
    cbn [bind]. pose proof (g_res _ _ _ G _ s (g_def _ _ _ G) ltac:(eapply slice_bytes_ok; eauto)) as R.
    unfold res_ok in R. destruct (vt_des p _ s) as [[r v]| |]; cbn [bind]; auto.
    destruct r; auto. apply IHn; try lia. apply Forall_app. auto.
Qed.

Lemma good_listf : good safe listf_vt list_W.
Proof.
  constructor; cbn [listf_vt vt_size vt_default vt_ser vt_des]; try lia.
  - constructor.
  - intros [| | | |l]; cbn [list_W]; try tauto. intros Hw. eapply concat_bytes_ok; eauto.
  - intros [| | | |l] [| | | |o]; cbn [list_W]; try tauto. intros Hw Ho Hlt.
    cbn [concat_serialize] in *. apply listf_des_true. exists (length l), l.
    pose proof (concat_lens safe p W G Hs l Hw) as CL.
    rewrite (zlen_concat (vt_size p)) by auto. rewrite zlen_map. split; [reflexivity|]. split; auto.
    eapply decode_all_rt; [exact Hlt|apply gooda_repeat; eauto| | |].
    + apply Forall2_nth_repeat. eapply g_def; eauto.
    + now apply holds_repeat.
    + rewrite sers_repeat.
      pose proof (concat_slices_cr (vt_size p) (map (vt_ser p) l) [] [] CL) as C.
      cbn [app] in C. rewrite app_nil_r, map_length in C. exact C.
  - intros o1 o2 b v _ _ _ E. apply listf_des_true in E. now apply listf_des_true.
  - intros o b _ Hb. unfold listf_deserialize. replace (vt_size p =? 0) with false by lia.
    destruct (Z.eqb_spec (zlen b mod vt_size p) 0) as [E|E]; cbn [negb]; [|constructor].
    pose proof (zlen_nonneg b) as Hz.
    set (n := Z.to_nat (zlen b / vt_size p)).
    assert (Hn : zlen b = Z.of_nat n * vt_size p).
    { unfold n. rewrite Z2Nat.id by (apply Z.div_pos; lia).
      pose proof (Z.div_mod (zlen b) (vt_size p)). lia. }
    pose proof (listf_des_loop_ok b Hb n (length b) 0 [] Hn ltac:(lia)
                  ltac:(unfold zlen in *; nia) ltac:(constructor)) as R.
    destruct (listf_des_loop _ _ _ _ _) as [[r a]| |]; cbn [bind res_ok]; auto.
Qed.
Lemma canonical_listf : canonical p W -> canonical listf_vt list_W.
Proof.
  intros Hc o b v _ Hb _ E. cbn [listf_vt vt_ser vt_des] in *. apply listf_des_true in E.
  destruct E as (n & vs & Hz & -> & Hd).
  pose proof (decode_all_length _ _ _ _ _ Hd) as (_ & _ & Lv). rewrite repeat_length in Lv.
  assert (Sl : slices b (cr (vt_size p) 0 n) (sers (repeat p n) vs)).
  { eapply decode_all_canon; [exact Hb|apply canonical_repeat; exact Hc| |exact Hd|apply cr_sizes].
    apply Forall2_nth_repeat. eapply g_def; eauto. }
  rewrite <- Lv in Sl at 2. rewrite sers_repeat in Sl.
  apply slices_cr_concat in Sl; [|pose proof (zlen_nonneg b); lia|lia].
  cbn [Z.add] in Sl. rewrite <- Hz, slice_full in Sl. cbn [concat_serialize]. now injection Sl.
Qed.
End ListF.
