(** The theorems of ThmSize, for the containers. *)
From Coq Require Import ZArith String List Bool Lia ZifyBool ZifyNat Sorting.Sorted.
From Verif Require Import Base SpecSSZ SpecWire SpecPhase0 ModelSSZ ModelEth SpecObj SpecClasses SpecSize Samples
  LemBase LemBits LemTy LemSer LemCodec LemMatch LemWire LemBind LemThmCodec LemSize LemFit.
Import ListNotations.
Open Scope list_scope.
Open Scope Z_scope.

(** ** Classes and types *)
Lemma matches_solid t : wf t = true -> forall s, matches t s = true -> solid s = true.
Proof.
  induction t using ty_ind'; intros Hwf s Hm; destruct s; try discriminate Hm; cbn [matches solid wf] in *.
  - lia.
  - reflexivity.
  - reflexivity.
  - lia.
  - reflexivity.
  - apply andb_true_iff in Hwf as [Hwf Hsz]. apply andb_true_iff in Hwf as [Hwf Hn]. apply andb_true_iff in Hm as [Hn' Hm].
    rewrite (IHt Hwf _ Hm), (matches_variable t Hwf _ Hm). lia.
  - apply andb_true_iff in Hwf as [Hwf _]. apply andb_true_iff in Hm as [_ Hm]. auto.
  - apply andb_true_iff in Hwf as [Hwf _]. apply andb_true_iff in Hm as [_ Hm]. auto.
  - change (wf (TClass ci fs) = true) in Hwf. apply wf_class in Hwf. destruct Hwf. apply all2b_Forall2 in Hm.
    apply andb_true_iff. split.
    + clear - H cw_fields Hm. revert H cw_fields. induction Hm; intros Ha Hw; [reflexivity|]. inversion Ha; inversion Hw; subst.
      cbn [forallb]. apply andb_true_iff. auto.
    + destruct Hm; [easy|reflexivity].
Qed.
Lemma matches_shape t : forall s v, matches t s = true -> (shape s v <-> wt t v).
Proof.
  induction t using ty_ind'; intros s v Hm; destruct s; try discriminate Hm; cbn [matches] in Hm;
    destruct v; cbn [shape wt]; try tauto.
  - apply Z.eqb_eq in Hm. subst. tauto.
  - apply Z.eqb_eq in Hm. subst. tauto.
  - apply andb_true_iff in Hm as [Hn Hm]. apply Z.eqb_eq in Hn. subst. rewrite !Forall_forall.
    split; intros [A B]; (split; [exact A|]); intros x Hx; apply (IHt s x Hm); auto.
  - apply andb_true_iff in Hm as [Hn Hm]. rewrite !Forall_forall.
    split; intros B x Hx; apply (IHt s x Hm); auto.
  - apply andb_true_iff in Hm as [Hn Hm]. rewrite !Forall_forall.
    split; intros B x Hx; apply (IHt s x Hm); auto.
  - apply all2b_Forall2 in Hm. revert l H.
    induction Hm as [|t0 [nm s0] fs gs Hm _ IH]; intros l Ha; destruct l; cbn [all2]; try tauto.
    inversion Ha as [|? ? Hx Hxs]; subst. specialize (IH l ltac:(auto)). cbn [snd] in Hm.
    rewrite (Hx s0 v Hm). rewrite IH. tauto.
Qed.
Lemma plain_matches t : forall s, matches t s = true -> plain s = no_padding t.
Proof.
  induction t using ty_ind'; intros s Hm; destruct s; try discriminate Hm; cbn [matches plain no_padding] in *; try reflexivity.
  - apply Z.eqb_eq in Hm. now subst.
  - apply andb_true_iff in Hm as [_ Hm]. auto.
  - apply andb_true_iff in Hm as [_ Hm]. auto.
  - apply andb_true_iff in Hm as [_ Hm]. auto.
  - apply all2b_Forall2 in Hm. induction Hm; [reflexivity|]. inversion H; subst. cbn [forallb]. f_equal; auto.
Qed.
Lemma pair_solid t s : container_pair t s -> wf t = true /\ matches t s = true /\ solid s = true.
Proof.
  intros Hp. pose proof (is_container_wf _ (container_pair_container _ _ Hp)) as W. pose proof (container_pair_matches _ _ Hp) as M.
  repeat split; auto. exact (matches_solid t W s M).
Qed.
Lemma pair_natural t s : container_pair t s -> natural s = true.
Proof.
  intros [n _ Hin|n _ Hin].
  - assert (E : forallb (fun p => natural (snd p)) (phase0_containers preset_mainnet) = true) by (vm_compute; reflexivity).
    rewrite forallb_forall in E. exact (E _ Hin).
  - assert (E : forallb (fun p => natural (snd p)) (phase0_containers preset_minimal) = true) by (vm_compute; reflexivity).
    rewrite forallb_forall in E. exact (E _ Hin).
Qed.

(** ** Sizes *)
Lemma typed_shape s : forall v, has_type s v -> shape s v.
Proof.
  induction s using sty_ind'; intros v Hv; destruct v; cbn [has_type shape] in *; try contradiction; try tauto.
  - destruct Hv as [A B]. split; [exact A|]. rewrite Forall_forall in *. auto.
  - destruct Hv as [A B]. rewrite Forall_forall in *. auto.
  - revert l Hv. induction H as [|[n s] fs Hx _ IH]; intros [|v l] Hv; try contradiction; [exact I|]. cbn [snd] in Hx.
    destruct Hv as [A B]. split; [exact (Hx v A)|exact (IH l B)].
Qed.
Lemma min_bound s : natural s = true -> forall v, shape s v -> min_size s <= zlen (ssz_serialize s v).
Proof.
  induction s using sty_ind'; intros Hn v Hv; destruct v; cbn [shape] in Hv; try contradiction;
    cbn [natural min_size ssz_serialize] in *.
  - rewrite le_len. lia.
  - unfold zlen. cbn [length]. lia.
  - lia.
  - rewrite le_len, Z2Nat.id by (apply Z.div_pos; lia). lia.
  - rewrite le_len. pose proof (zlen_nonneg l). pose proof (Z.div_pos (zlen l) 8). rewrite Z2Nat.id by lia. lia.
  - apply andb_true_iff in Hn. destruct Hn as [Hn Hs]. destruct Hv as [<- Hv]. rewrite series_len, map_map. clear Hn.
    induction Hv as [|v l Hv _ IH]; [reflexivity|]. rewrite zlen_cons. cbn [map sumZ fold_right fst snd]. unfold sumZ in IH.
    specialize (IHs Hs v Hv). unfold slot_size in *. cbn [fst snd] in IH. nia.
  - apply zlen_nonneg.
  - rewrite series_len. revert l Hv. induction H as [|[name s] fs Hf _ IH]; intros [|v l] Hv; try contradiction; [cbn; lia|].
    destruct Hv as [Hv Hr]. cbn [forallb snd] in Hn. apply andb_true_iff in Hn. destruct Hn as [Hn Hs].
    specialize (IH Hs l Hr). specialize (Hf Hn v Hv). cbn [map fold_right snd fst sumZ] in *. unfold slot_size, sumZ in *. lia.
Qed.
Lemma sizes_bounded t s v : container_pair t s -> has_type s v -> min_size s <= zlen (serialize t v) <= max_size s.
Proof. intros Hp Hv. rewrite (conformance t s v Hp Hv). exact (size_bounds s (pair_natural t s Hp) v Hv). Qed.
Lemma sizes_attained t s : container_pair t s -> exists v w, has_type s v /\ has_type s w /\
  zlen (serialize t v) = min_size s /\ zlen (serialize t w) = max_size s.
Proof.
  intros Hp. pose proof (pair_natural t s Hp) as N. destruct (size_attained false s N) as (v & Hv & Ev).
  destruct (size_attained true s N) as (w & Hw & Ew). exists v, w. rewrite !(conformance t s _ Hp); auto.
Qed.
Lemma accepted_size t s old b v : container_pair t s -> wt t old -> bytes_ok b -> deserialize t old b = Ok (true, v) ->
  min_size s <= zlen (serialize t v) /\ zlen (serialize t v) <= zlen b /\
  (is_variable s = true -> zlen (serialize t v) = zlen b).
Proof.
  intros Hp Ho Hb E. destruct (pair_solid t s Hp) as (W & M & S). pose proof (result_wt t old b true v W Ho Hb E) as Hv.
  rewrite (matches_serialize t W s v M Hv). split; [apply min_bound; [exact (pair_natural t s Hp)|now apply (matches_shape t)]|].
  pose proof E as A. apply (acceptance t s old b v W M Ho Hb) in A. pose proof (accepted_len s S b v Hb A) as L. unfold len_ok in L.
  rewrite L. destruct (is_variable s); [split; [lia|auto]|]. split; [|discriminate].
  rewrite (matches_size t W s M). exact (fixed_exact_or_longer t old b v W Ho Hb E).
Qed.
Lemma small_max : forall name s,
  In (name, s) (phase0_containers preset_mainnet) \/ In (name, s) (phase0_containers preset_minimal) ->
  (max_size s < 2 ^ 32 <-> name <> "BeaconState"%string) /\ (max_size s < 2 ^ 18 \/ 2 ^ 46 < max_size s).
Proof.
  assert (G : Forall (fun p : string * sty => (max_size (snd p) < 2 ^ 32 <-> fst p <> "BeaconState"%string) /\ (max_size (snd p) < 2 ^ 18 \/ 2 ^ 46 < max_size (snd p)))
    (phase0_containers preset_mainnet ++ phase0_containers preset_minimal)).
  { assert (C : forallb (fun p : string * sty => Bool.eqb (max_size (snd p) <? 2 ^ 32) (negb (String.eqb (fst p) "BeaconState"))
       && ((max_size (snd p) <? 2 ^ 18) || (2 ^ 46 <? max_size (snd p)))) (phase0_containers preset_mainnet ++ phase0_containers preset_minimal) = true) by (vm_compute; reflexivity).
    rewrite forallb_forall in C. apply Forall_forall. intros p Hp. specialize (C p Hp). apply andb_true_iff in C as [C1 C2].
    apply eqb_prop in C1. split; [|apply orb_true_iff in C2; rewrite !Z.ltb_lt in C2; exact C2].
    rewrite <- Z.ltb_lt, C1. destruct (String.eqb_spec (fst p) "BeaconState"); cbn; split; congruence. }
  intros name s I. rewrite Forall_forall in G. apply (G (name, s)). apply in_or_app. exact I.
Qed.
Lemma within_round_trip t s v old : container_pair t s -> max_size s < 2 ^ 32 -> has_type s v -> wt t old ->
  deserialize t old (serialize t v) = Ok (true, v).
Proof.
  intros Hp Hm Hv Ho. destruct (pair_solid t s Hp) as (W & M & _).
  apply round_trip; auto.
  - now apply (matches_type t s v M).
  - pose proof (sizes_bounded t s v Hp Hv). lia.
Qed.

(** ** Values that survive *)
Lemma survives t s v old : wf t = true -> matches t s = true -> wt t v -> wt t old ->
  (deserialize t old (serialize t v) = Ok (true, v) <-> offsets_fit s v).
Proof.
  intros W M Hv Ho. pose proof (matches_solid t W s M) as S. pose proof (proj2 (matches_shape t s v M) Hv) as Sh.
  rewrite (matches_serialize t W s v M Hv). pose proof (ser_ok s v Sh) as Hb.
  rewrite (acceptance t s old _ v W M Ho Hb). split.
  - exact (self_fit s S v Sh).
  - exact (fit_self s S v Sh).
Qed.
Lemma survives_containers t s v old : container_pair t s -> wt t v -> wt t old ->
  (deserialize t old (serialize t v) = Ok (true, v) <-> offsets_fit s v).
Proof. intros Hp. destruct (pair_solid t s Hp) as (W & M & _). now apply survives. Qed.

(** ** Everything that is accepted *)
Lemma subs_fixed s l : solid s = true -> composite s = true -> is_variable s = false -> Forall (fun s => is_variable s = false) (subs s l) \/ exists s' n, s = SList s' n.
Proof.
  destruct s; try discriminate; intros Hs _ Hv; cbn [subs is_variable] in *.
  - left. now apply Forall_repeat.
  - left. apply Forall_map, Forall_forall. intros f Hf. destruct (is_variable (snd f)) eqn:V; [|reflexivity].
    rewrite <- Hv. symmetry. apply existsb_exists. eauto.
Qed.
Lemma toffs_none es : Forall (fun e : part => fst e = false) es -> forall o, toffs es o = [].
Proof. induction 1 as [|[f p] es E _ IH]; intros o; [reflexivity|]. cbn [fst] in E. subst f. exact (IH o). Qed.
Lemma fixed_fit s : solid s = true -> is_variable s = false -> forall v, shape s v -> offsets_fit s v.
Proof.
  induction s as [s Hc|s Hc IH] using sty_comp_ind; intros Hs Hf v Hv.
  - destruct s; try discriminate Hc; destruct v; exact I.
  - apply (shape_subs s v Hc) in Hv. destruct Hv as (l & -> & [Ht Hl] & Hv). apply (fit_subs s l Hc Hl).
    destruct (subs_fixed s l Hs Hc Hf) as [F|(s' & n & ->)]; [|discriminate Hf].
    pose proof (subs_solid s l Hs) as Hss. split.
    + apply toffs_fit. rewrite toffs_none; [constructor|]. unfold es_of. apply Forall_map, Forall_forall. intros [a c] Hi.
      apply in_combine_l in Hi. rewrite Forall_forall in F. exact (F a Hi).
    + pose proof (Forall_mp _ _ _ (Forall_mp _ _ _ (IH l) Hss) F) as G. clear - G Hv. revert G. induction Hv; intros G; inversion G; subst; constructor; auto.
Qed.
Lemma bytes_at_front (b tail : list Z) i j : 0 <= i -> j <= zlen b -> bytes_at (b ++ tail) i j = bytes_at b i j.
Proof.
  intros Hi Hj. unfold bytes_at, zlen in *. destruct (Z.le_gt_cases j i) as [H|H].
  { replace (Z.to_nat (j - i)) with 0%nat by lia. reflexivity. }
  rewrite skipn_app. rewrite firstn_app. rewrite skipn_length.
  replace (Z.to_nat (j - i) - (length b - Z.to_nat i))%nat with 0%nat by lia. cbn [firstn]. apply app_nil_r.
Qed.
Lemma fixed_parts sizes b tail : Forall (fun s => 0 < s) sizes -> forall it, 0 <= it -> it + fixed_room sizes <= zlen b ->
  map (fun r : Z * Z => bytes_at (b ++ tail) (fst r) (snd r)) (part_ranges sizes (b ++ tail) it)
  = map (fun r : Z * Z => bytes_at b (fst r) (snd r)) (part_ranges sizes b it) /\
  offsets sizes (b ++ tail) it = [] /\ offsets sizes b it = [].
Proof.
  induction 1 as [|s r Hs Hr IH]; intros it Hi Hl; [repeat split|].
  assert (Hp : 0 <= fixed_room r) by (apply room_pos; eapply Forall_impl; [|exact Hr]; cbn beta; lia).
  change (fixed_room (s :: r)) with ((if s =? 0 then 4 else s) + fixed_room r) in Hl.
  cbn [part_ranges offsets]. destruct (Z.eqb_spec s 0); [lia|]. destruct (IH (it + s) ltac:(lia) ltac:(lia)) as (A & B & C).
  cbn [map fst snd]. rewrite A, B, C. split; [|auto]. f_equal. apply bytes_at_front; lia.
Qed.
Lemma accepts_tail fs b tail v : solid (SContainer fs) = true -> is_variable (SContainer fs) = false ->
  accepts (SContainer fs) b v -> accepts (SContainer fs) (b ++ tail) v.
Proof.
  intros Hs Hv Ha. apply (accepts_subs _ Hs eq_refl) in Ha. apply (accepts_subs _ Hs eq_refl).
  destruct Ha as (l & -> & _ & Ho & Ha). exists l. split; [reflexivity|]. split; [exact I|].
  pose proof (subs_solid _ l Hs) as Hss. destruct (subs_fixed _ l Hs eq_refl Hv) as [F|(? & ? & E)]; [|discriminate E].
  assert (P : Forall (fun s => 0 < s) (map sty_size (subs (SContainer fs) l))).
  { apply Forall_map. rewrite Forall_forall in *. intros s Hi. destruct (solid_size s (Hss s Hi)) as [A B].
    rewrite (F s Hi) in B. lia. }
  destruct Ho as (H1 & H2 & H3 & H4).
  destruct (fixed_parts _ b tail P 0 ltac:(lia) ltac:(lia)) as (A & B & C). split.
  - unfold layout_ok. rewrite B. pose proof (zlen_nonneg tail). rewrite zlen_app. split; [lia|]. split; [reflexivity|]. split; constructor.
  - unfold parts in *. rewrite A. exact Ha.
Qed.
Lemma accepted_exact fs b v : solid (SContainer fs) = true -> plain (SContainer fs) = true -> bytes_ok b ->
  (accepts (SContainer fs) b v /\ shape (SContainer fs) v <->
   shape (SContainer fs) v /\ offsets_fit (SContainer fs) v /\
   if is_variable (SContainer fs) then b = ssz_serialize (SContainer fs) v
   else exists tail, b = ssz_serialize (SContainer fs) v ++ tail).
Proof.
  intros Hs Hp Hb. set (s := SContainer fs) in *. split.
  - intros [Ha Hv]. split; [exact Hv|]. destruct (is_variable s) eqn:V.
    + pose proof (accepted_rewritten s Hs Hp b v Hb Ha (or_introl V)) as E. split; [|now symmetry].
      apply (self_fit s Hs v Hv). unfold self. now rewrite E.
    + split; [exact (fixed_fit s Hs V v Hv)|].
      pose proof (accepts_subs s Hs eq_refl b v) as X. apply X in Ha. destruct Ha as (l & -> & _ & Ho & Ha).
      pose proof (subs_solid s l Hs) as Hss. pose proof (subs_plain s l Hp) as Hpp.
      destruct (join_whole b _ Hb (sizes_nonneg _ Hss) Ho) as (J1 & J2 & J3 & J4). rewrite <- J2 in Ha.
      rewrite (ser_subs s l eq_refl).
      assert (R : Forall rewritten (subs s l)).
      { rewrite Forall_forall in *. intros s' I. apply accepted_rewritten; auto. }
      rewrite (es_cut _ Hss R (cut (map sty_size (subs s l)) b 0) l); auto.
      2: { rewrite J2. now apply parts_ok. }
      rewrite (var_sizes _ Hss) in J4. assert (N : existsb is_variable (subs s l) = false).
      { cbn [subs s]. rewrite existsb_map. exact V. }
      rewrite (J4 N). exists (bytes_at b (fixed_room (map sty_size (subs s l))) (zlen b)).
      pose proof (room_pos _ (sizes_nonneg _ Hss)). destruct Ho as [Ho _].
      rewrite <- bytes_at_join by lia. symmetry. apply bytes_at_all.
  - intros (Hv & Hf & E). split; [|exact Hv]. pose proof (fit_self s Hs v Hv Hf) as A. unfold self in A.
    destruct (is_variable s) eqn:V; [now subst|]. destruct E as (tail & ->). now apply accepts_tail.
Qed.
Lemma plain_exact t s old b v : container_pair t s -> no_padding t = true -> wt t old -> bytes_ok b ->
  (deserialize t old b = Ok (true, v) <->
   wt t v /\ offsets_fit s v /\ if is_variable s then b = serialize t v else exists tail, b = serialize t v ++ tail).
Proof.
  intros Hp Hn Ho Hb. destruct (pair_solid t s Hp) as (W & M & S). destruct (container_is_container t s Hp) as (fs & ->).
  rewrite <- (plain_matches t _ M) in Hn. pose proof (accepted_exact fs b v S Hn Hb) as X.
  rewrite (matches_shape t _ v M) in X. rewrite (acceptance t _ old b v W M Ho Hb).
  split.
  - intros A. assert (Hv : wt t v) by (apply (result_wt t old b true v W Ho Hb); now apply (acceptance t _ old b v W M Ho Hb)).
    rewrite (matches_serialize t W _ v M Hv). tauto.
  - intros (Hv & A). rewrite (matches_serialize t W _ v M Hv) in A. tauto.
Qed.

(** ** One bitvector with unused bits: BeaconState *)
Lemma es_of_app ss1 : forall ss2 l1 l2, length l1 = length ss1 -> es_of (ss1 ++ ss2) (l1 ++ l2) = es_of ss1 l1 ++ es_of ss2 l2.
Proof.
  unfold es_of. induction ss1 as [|s ss1 IH]; intros ss2 [|v l1] l2 E; try discriminate; [reflexivity|].
  cbn [app combine map]. f_equal. apply IH. now injection E.
Qed.
Lemma es_of_length ss l : length l = length ss -> length (es_of ss l) = length ss.
Proof. intros E. unfold es_of. rewrite map_length, combine_length. lia. Qed.
Lemma acc_all_length ss : forall bs l, acc_all ss bs l -> length bs = length ss /\ length l = length ss.
Proof. induction ss; intros [|b bs] [|v l] A; cbn [acc_all] in A; try contradiction; [auto|]. destruct A as [_ A]. apply IHss in A. cbn. lia. Qed.
Lemma fixed_len_app a c : fixed_len (a ++ c) = fixed_len a + fixed_len c.
Proof. induction a as [|[f p] a IH]; [reflexivity|]. cbn [app]. rewrite !fixed_len_cons, IH. lia. Qed.
Lemma toffs_swap es1 es2 p q : forall o, toffs (es1 ++ (false, p) :: es2) o = toffs (es1 ++ (false, q) :: es2) o.
Proof. induction es1 as [|[[] r] es1 IH]; intros o; cbn [app toffs]; congruence. Qed.

Lemma layout_toffs b sizes : bytes_ok b -> Forall (fun s => 0 <= s) sizes -> layout_ok sizes b ->
  Forall (fun o => o < 2 ^ 32) (toffs (cut sizes b 0) (fixed_room sizes)).
Proof.
  intros Hb Hp (H1 & H2 & H3 & H4). pose proof (room_pos sizes Hp) as Hrp.
  destruct (join_parts b Hb sizes 0 Hp ltac:(lia) ltac:(lia) H3 H4) as (_ & _ & _ & J). pose proof (offsets_lt b Hb sizes 0) as B.
  destruct (offsets sizes b 0) as [|o os] eqn:EO; cbn [hd] in *.
  - replace (toffs (cut sizes b 0) (fixed_room sizes)) with (@nil Z); [constructor|].
    revert J. generalize (zlen b) as z. generalize (fixed_room sizes) as z'. clear.
    generalize (cut sizes b 0) as es. induction es as [|[[] p] es IH]; intros z' z; cbn [toffs]; [reflexivity|discriminate|apply IH].
  - rewrite H2 in J. rewrite J, <- H2. exact B.
Qed.

Section OneBitvector.
Variables (fs1 fs2 : list (string * sty)) (name : string) (n : Z).
Hypothesis Hn : 0 < n < 8.
Let s := SContainer (fs1 ++ (name, SBitvector n) :: fs2).
Hypothesis Hs : solid s = true.
Hypothesis Hp : forallb (fun f => plain (snd f)) (fs1 ++ fs2) = true.
Hypothesis Hvar : is_variable s = true.
Let pos := fixed_room (map (fun f => sty_size (snd f)) fs1).
Lemma one_size : sty_size (SBitvector n) = 1.
Proof. cbn [sty_size]. symmetry. apply (Z.div_unique _ _ _ (n - 1)); lia. Qed.
Lemma one_byte bits : zlen bits = n -> ssz_serialize (SBitvector n) (VBits bits) = [bits_val bits].
Proof.
  intros L. cbn [ssz_serialize]. pose proof one_size as E. cbn [sty_size] in E. rewrite E. change (Z.to_nat 1) with 1%nat. cbn [le_bytes].
  pose proof (bits_val_bound bits) as B. rewrite L in B.
  assert (2 ^ n <= 2 ^ 7) by (apply Z.pow_le_mono_r; lia). f_equal. apply Z.mod_small. change (2 ^ 7) with 128 in *. lia.
Qed.
Lemma solid_parts : Forall (fun s => solid s = true) (map snd fs1) /\ Forall (fun s => solid s = true) (map snd fs2) /\
  Forall (fun s => plain s = true) (map snd fs1) /\ Forall (fun s => plain s = true) (map snd fs2).
Proof.
  pose proof (subs_solid s [] Hs) as A. unfold s in A. cbn [subs] in A. rewrite map_app in A. apply Forall_app in A. destruct A as [A1 A2].
  cbn [map] in A2. inversion A2; subst.
  rewrite forallb_app in Hp. apply andb_true_iff in Hp as [P1 P2]. rewrite forallb_forall in P1, P2.
  repeat split; auto; apply Forall_map, Forall_forall; auto.
Qed.
Lemma split_fields l : shape s (VSeq l) -> exists l1 bits l2, l = l1 ++ VBits bits :: l2 /\
  length l1 = length fs1 /\ length l2 = length fs2 /\ zlen bits = n.
Proof.
  intros Hv. apply (shape_subs s _ eq_refl) in Hv. destruct Hv as (l' & [= <-] & _ & F). unfold s in F. cbn [subs] in F. rewrite map_app in F.
  apply Forall2_app_inv_l in F. destruct F as (l1 & lr & F1 & F2 & ->). cbn [map snd] in F2. inversion F2 as [|? v ? l2 Hb F3]; subst.
  destruct v as [| | |bits|]; cbn [shape] in Hb; try contradiction. exists l1, bits, l2. split; [reflexivity|].
  apply Forall2_len in F1, F3. rewrite map_length in *. auto.
Qed.
Theorem one_exact b v : bytes_ok b ->
  (accepts s b v /\ shape s v <->
   shape s v /\ offsets_fit s v /\ exists b1 x b2, zlen b1 = pos /\ b = b1 ++ x :: b2 /\
     ssz_serialize s v = b1 ++ x mod 2 ^ n :: b2).
Proof.
  intros Hb. destruct solid_parts as (S1 & S2 & P1 & P2). split.
  - intros [Ha Hv]. split; [exact Hv|].
    pose proof Ha as Ha0. apply (accepts_subs s Hs eq_refl) in Ha. destruct Ha as (l & -> & _ & Ho & Ha).
    destruct (split_fields l Hv) as (l1 & bits & l2 & -> & L1 & L2 & Lb).
    pose proof (subs_solid s (l1 ++ VBits bits :: l2) Hs) as Hss.
    destruct (join_whole b _ Hb (sizes_nonneg _ Hss) Ho) as (J1 & J2 & J3 & _).
    rewrite (var_sizes _ Hss) in J3.
    assert (V : existsb is_variable (subs s (l1 ++ VBits bits :: l2)) = true).
    { unfold s in *. cbn [subs]. rewrite existsb_map. exact Hvar. }
    specialize (J3 V). rewrite <- J2 in Ha. pose proof (layout_toffs b _ Hb (sizes_nonneg _ Hss) Ho) as Tof.
    set (es := cut (map sty_size (subs s (l1 ++ VBits bits :: l2))) b 0) in *.
    assert (Hbs : Forall bytes_ok (map snd es)) by (rewrite J2; now apply parts_ok).
    unfold s in J1, Ha. cbn [subs] in J1, Ha. rewrite map_app in Ha. rewrite !map_app in J1. cbn [map snd] in J1, Ha.
    apply Forall2_app_inv_l in J1. destruct J1 as (es1 & er & E1 & E2 & Ees).
    inversion E2 as [|w0 [f p] w1 es2 [Ef Ep] E3 W0 W1]; subst er. pose proof one_size as O1. cbn [sty_size] in O1.
    cbn [fst snd sty_size] in Ef, Ep. rewrite O1 in Ef, Ep. clear O1. specialize (Ep ltac:(lia)).
    change (1 =? 0) with false in Ef. subst f. rewrite Ees in *. clear es Ees.
    apply acc_all_app in Ha. destruct Ha as (bs1 & br & k1 & k2 & B1 & B2 & A1 & A2).
    rewrite map_app in B1. cbn [map snd] in B1, Hbs. rewrite map_app in Hbs. apply Forall_app in Hbs. destruct Hbs as [Hb1 Hb2].
    cbn [map snd] in Hb2. pose proof (Forall_inv Hb2) as Hbp. pose proof (Forall_inv_tail Hb2) as Hb3.
    pose proof (acc_all_length _ _ _ A1) as [N1 N2]. rewrite map_length in N1, N2.
    assert (Le : length es1 = length fs1) by (apply Forall2_len in E1; rewrite !map_length in E1; lia).
    assert (Q1 : map snd es1 = bs1 /\ p :: map snd es2 = br).
    { assert (LL : length (map snd es1) = length bs1) by (rewrite map_length; lia). revert B1 LL. clear. generalize (map snd es1) as m. intros m.
      revert bs1. induction m as [|x m IH]; intros [|y bs1] E L; try discriminate; [auto|]. cbn [app] in E. injection E as -> E.
      destruct (IH bs1 E ltac:(now injection L)) as [-> ->]. auto. }
    destruct Q1 as [<- <-].
    assert (Q2 : l1 = k1 /\ VBits bits :: l2 = k2).
    { assert (LL : length l1 = length k1) by lia. revert B2 LL. clear. revert k1. induction l1 as [|x m IH]; intros [|y k1] E L; try discriminate; [auto|].
      cbn [app] in E. injection E as -> E. destruct (IH k1 E ltac:(now injection L)) as [-> ->]. auto. }
    destruct Q2 as [<- <-]. cbn [acc_all] in A2. destruct A2 as [A2 A3].
    assert (R1 : Forall rewritten (map snd fs1)) by (rewrite Forall_forall in *; intros; apply accepted_rewritten; auto).
    assert (R2 : Forall rewritten (map snd fs2)) by (rewrite Forall_forall in *; intros; apply accepted_rewritten; auto).
    pose proof (es_cut _ S1 R1 es1 l1 Hb1 E1 A1) as C1. pose proof (es_cut _ S2 R2 es2 l2 Hb3 E3 A3) as C2.
    assert (T : es_of (subs s (l1 ++ VBits bits :: l2)) (l1 ++ VBits bits :: l2) = es1 ++ (false, [bits_val bits]) :: es2).
    { unfold s. cbn [subs]. rewrite map_app. rewrite es_of_app by (rewrite map_length; lia). rewrite C1. f_equal.
      cbn [map snd]. unfold es_of. cbn [combine map fst snd is_variable]. rewrite (one_byte bits Lb). f_equal. exact C2. }
    destruct p as [|x [|y p]]; try (unfold zlen in Ep; cbn [length] in Ep; lia).
    cbn [accepts] in A2. destruct A2 as (_ & _ & A2). cbn [le_val] in A2. rewrite Z.mul_0_r, Z.add_0_r in A2.
    destruct (series_swap es1 es2 [x] [bits_val bits] eq_refl) as (b1 & b2 & Z1 & Z2 & Z3).
    split.
    + apply (self_fit s Hs _ Hv). unfold self. rewrite (ser_subs s _ eq_refl), T.
      (* the same layout with the other byte *)
      assert (F : series_fit (es1 ++ (false, [bits_val bits]) :: es2)).
      { apply toffs_fit. rewrite (toffs_swap es1 es2 [bits_val bits] [x]).
        replace (fixed_len (es1 ++ (false, [bits_val bits]) :: es2)) with (fixed_len (es1 ++ (false, [x]) :: es2))
          by (rewrite !fixed_len_app, !fixed_len_cons; reflexivity).
        assert (Z : Forall2 sized (map sty_size (subs s (l1 ++ VBits bits :: l2))) (es1 ++ (false, [x]) :: es2)).
        { unfold s. cbn [subs]. rewrite !map_app. apply Forall2_app; [exact E1|]. cbn [map snd]. constructor; [|exact E3].
          rewrite one_size. split; [reflexivity|]. reflexivity. }
        rewrite <- (sized_room _ _ Z). exact Tof. }
      apply (accepts_subs s Hs eq_refl).
      assert (Z : Forall2 sized (map sty_size (subs s (l1 ++ VBits bits :: l2))) (es1 ++ (false, [bits_val bits]) :: es2)).
      { unfold s. cbn [subs]. rewrite !map_app. apply Forall2_app; [exact E1|]. cbn [map snd]. constructor; [|exact E3].
        rewrite one_size. split; [reflexivity|]. reflexivity. }
      destruct (cut_whole _ _ Z F) as [Ho' Hp'].
      exists (l1 ++ VBits bits :: l2). split; [reflexivity|]. split; [exact I|]. split; [exact Ho'|]. rewrite Hp'.
      unfold s. cbn [subs]. rewrite !map_app. apply acc_all_app. exists (map snd es1), ([bits_val bits] :: map snd es2), l1, (VBits bits :: l2).
      split; [reflexivity|]. split; [reflexivity|]. split; [exact A1|]. cbn [map snd acc_all]. split; [|exact A3].
      cbn [accepts]. pose proof one_size as O. cbn [sty_size] in O. rewrite O. split; [reflexivity|]. split; [exact Lb|].
      cbn [le_val]. rewrite Z.mul_0_r, Z.add_0_r. symmetry. apply Z.mod_small. rewrite <- Lb. apply bits_val_bound.
    + exists b1, x, b2. rewrite (ser_subs s _ eq_refl), T, Z3, A2. split; [|split; [|reflexivity]].
      * rewrite Z1. unfold pos. rewrite <- map_map. symmetry. now apply sized_room.
      * rewrite <- J3, Z2. reflexivity.
  - intros (Hv & Hf & b1 & x & b2 & Lb1 & -> & E). split; [|exact Hv].
    destruct v as [| | | |l]; try (cbn [shape s] in Hv; contradiction).
    destruct (split_fields l Hv) as (l1 & bits & l2 & -> & L1 & L2 & Lb).
    pose proof (fit_self s Hs _ Hv Hf) as A. unfold self in A.
    pose proof (subs_solid s (l1 ++ VBits bits :: l2) Hs) as Hss.
    apply (shape_subs s _ eq_refl) in Hv. destruct Hv as (l' & [= <-] & _ & Hsh).
    apply (fit_subs s _ eq_refl) in Hf; [|symmetry; exact (Forall2_len _ _ _ Hsh)]. destruct Hf as [F _].
    apply (accepts_subs s Hs eq_refl) in A. destruct A as (l' & [= <-] & _ & _ & A).
    assert (Z : Forall2 sized (map sty_size (subs s (l1 ++ VBits bits :: l2))) (es_of (subs s (l1 ++ VBits bits :: l2)) (l1 ++ VBits bits :: l2))).
    { refine (proj1 (es_sized _ Hss _ _ _ _ A)).
      - eapply Forall_impl; [|exact Hss]. intros; now apply accepted_len.
      - apply parts_ok. rewrite E. apply Forall_app in Hb. destruct Hb as [Hb1 Hb2]. apply Forall_app. split; [exact Hb1|].
        constructor; [|exact (Forall_inv_tail Hb2)]. unfold byte_ok. assert (2 ^ n <= 2 ^ 7) by (apply Z.pow_le_mono_r; lia). change (2 ^ 7) with 128 in *.
        pose proof (Z.mod_pos_bound x (2 ^ n)). lia. }
    rewrite (ser_subs s _ eq_refl) in A, E. destruct (cut_whole _ _ Z F) as [_ Hp']. rewrite Hp' in A.
    assert (T : es_of (subs s (l1 ++ VBits bits :: l2)) (l1 ++ VBits bits :: l2) = es_of (map snd fs1) l1 ++ (false, [bits_val bits]) :: es_of (map snd fs2) l2).
    { unfold s. cbn [subs]. rewrite map_app. rewrite es_of_app by (rewrite map_length; lia). f_equal.
      cbn [map snd]. unfold es_of. cbn [combine map fst snd is_variable]. now rewrite (one_byte bits Lb). }
    rewrite T in *. set (es1 := es_of (map snd fs1) l1) in *. set (es2 := es_of (map snd fs2) l2) in *.
    destruct (series_swap es1 es2 [x] [bits_val bits] eq_refl) as (c1 & c2 & Z1 & Z2 & Z3).
    assert (Pz : Forall2 sized (map sty_size (map snd fs1)) es1 /\ Forall2 sized (map sty_size (map snd fs2)) es2).
    { unfold s in Z. cbn [subs] in Z. rewrite !map_app in Z. apply Forall2_app_inv_l in Z. destruct Z as (m1 & m2 & Y1 & Y2 & Y3).
      assert (LL : length es1 = length m1).
      { apply Forall2_len in Y1. rewrite <- Y1, !map_length. unfold es1. rewrite es_of_length; rewrite map_length; lia. }
      assert (QQ : es1 = m1 /\ (false, [bits_val bits]) :: es2 = m2).
      { revert Y3 LL. clear. revert m1. generalize es1 as m. induction m as [|y m IH]; intros [|z m1] E L; try discriminate; [auto|].
        cbn [app] in E. injection E as -> E. destruct (IH m1 E ltac:(now injection L)) as [-> ->]. auto. }
      destruct QQ as [<- <-]. cbn [map snd] in Y2. inversion Y2. auto. }
    destruct Pz as [Pz1 Pz2].
    assert (Eq : b1 = c1 /\ x mod 2 ^ n = bits_val bits /\ b2 = c2).
    { rewrite Z3 in E. assert (LL : length c1 = length b1).
      { unfold pos in Lb1. rewrite <- map_map, (sized_room _ _ Pz1) in Lb1. unfold zlen in *. lia. }
      revert E LL. clear. revert b1. induction c1 as [|y m IH]; intros [|z m1] E L; try discriminate.
      - cbn [app] in E. injection E as -> ->. auto.
      - cbn [app] in E. injection E as -> E. destruct (IH m1 E ltac:(now injection L)) as (-> & -> & ->). auto. }
    destruct Eq as (-> & Ex & ->). change (c1 ++ x :: c2) with (c1 ++ [x] ++ c2). rewrite <- Z2.
    assert (F' : series_fit (es1 ++ (false, [x]) :: es2)).
    { apply toffs_fit. apply toffs_fit in F. rewrite (toffs_swap es1 es2 [x] [bits_val bits]).
      replace (fixed_len (es1 ++ (false, [x]) :: es2)) with (fixed_len (es1 ++ (false, [bits_val bits]) :: es2))
          by (rewrite !fixed_len_app, !fixed_len_cons; reflexivity). exact F. }
    assert (Z' : Forall2 sized (map sty_size (subs s (l1 ++ VBits bits :: l2))) (es1 ++ (false, [x]) :: es2)).
    { unfold s. cbn [subs]. rewrite !map_app. apply Forall2_app; [exact Pz1|]. cbn [map snd]. constructor; [|exact Pz2].
      rewrite one_size. split; reflexivity. }
    destruct (cut_whole _ _ Z' F') as [Ho' Hp2]. apply (accepts_subs s Hs eq_refl). exists (l1 ++ VBits bits :: l2).
    split; [reflexivity|]. split; [exact I|]. split; [exact Ho'|]. rewrite Hp2.
    unfold s in A |- *. cbn [subs] in A |- *. rewrite !map_app in *. cbn [map snd] in *.
    apply acc_all_app in A. destruct A as (bs1 & br & k1 & k2 & B1 & B2 & A1 & A2).
    pose proof (acc_all_length _ _ _ A1) as [N1 N2]. rewrite map_length in N1, N2.
    assert (Q1 : map snd es1 = bs1 /\ [bits_val bits] :: map snd es2 = br).
    { assert (LL : length (map snd es1) = length bs1).
      { rewrite map_length. unfold es1. rewrite es_of_length; rewrite map_length; lia. }
      revert B1 LL. clear. generalize (map snd es1) as m. intros m.
      revert bs1. induction m as [|y m IH]; intros [|z bs1] E L; try discriminate; [auto|]. cbn [app] in E. injection E as -> E.
      destruct (IH bs1 E ltac:(now injection L)) as [-> ->]. auto. }
    destruct Q1 as [<- <-].
    assert (Q2 : l1 = k1 /\ VBits bits :: l2 = k2).
    { assert (LL : length l1 = length k1) by lia. revert B2 LL. clear. revert k1. induction l1 as [|y m IH]; intros [|z k1] E L; try discriminate; [auto|].
      cbn [app] in E. injection E as -> E. destruct (IH k1 E ltac:(now injection L)) as [-> ->]. auto. }
    destruct Q2 as [<- <-]. cbn [acc_all] in A2. destruct A2 as [_ A2].
    apply acc_all_app. exists (map snd es1), ([x] :: map snd es2), l1, (VBits bits :: l2).
    split; [reflexivity|]. split; [reflexivity|]. split; [exact A1|]. cbn [map snd acc_all]. split; [|exact A2].
    cbn [accepts]. pose proof one_size as O. cbn [sty_size] in O. rewrite O. split; [reflexivity|]. split; [exact Lb|].
    cbn [le_val]. rewrite Z.mul_0_r, Z.add_0_r. now symmetry.
Qed.
End OneBitvector.

(** ** The two BeaconState classes *)
Definition before_bits (p : preset) : list (string * sty) :=
  match sBeaconState p with SContainer fs => firstn 17 fs | _ => [] end.
Definition after_bits (p : preset) : list (string * sty) :=
  match sBeaconState p with SContainer fs => skipn 18 fs | _ => [] end.
Lemma state_bits p : sBeaconState p = SContainer (before_bits p ++ ("justification_bits"%string, SBitvector 4) :: after_bits p).
Proof. reflexivity. Qed.
Lemma state_exact t p pos old b v : container_pair t (sBeaconState p) ->
  is_variable (sBeaconState p) = true -> forallb (fun f => plain (snd f)) (before_bits p ++ after_bits p) = true ->
  fixed_room (map (fun f => sty_size (snd f)) (before_bits p)) = pos -> wt t old -> bytes_ok b ->
  (deserialize t old b = Ok (true, v) <->
   wt t v /\ offsets_fit (sBeaconState p) v /\
   exists b1 x b2, zlen b1 = pos /\ b = b1 ++ x :: b2 /\ serialize t v = b1 ++ x mod 16 :: b2).
Proof.
  intros Hp V P E Ho Hb. destruct (pair_solid t _ Hp) as (W & M & S). rewrite (acceptance t _ old b v W M Ho Hb).
  pose proof (matches_shape t _ v M) as X.
  assert (Q : accepts (sBeaconState p) b v -> wt t v).
  { intros A. apply (result_wt t old b true v W Ho Hb). now apply (acceptance t _ old b v W M Ho Hb). }
  pose proof (matches_serialize t W _ v M) as Y. rewrite state_bits in *.
  pose proof (one_exact (before_bits p) (after_bits p) "justification_bits"%string 4 ltac:(lia) S P V b v Hb) as Z.
  rewrite X, E in Z. change (2 ^ 4) with 16 in Z.
  split.
  - intros A. specialize (Q A). rewrite (Y Q). tauto.
  - intros (Hv & A). rewrite (Y Hv) in A. tauto.
Qed.
Lemma state_exact_mainnet old b v : wt (tBeaconState mainnet) old -> bytes_ok b ->
  (deserialize (tBeaconState mainnet) old b = Ok (true, v) <->
   wt (tBeaconState mainnet) v /\ offsets_fit (sBeaconState preset_mainnet) v /\
   exists b1 x b2, zlen b1 = 2687256 /\ b = b1 ++ x :: b2 /\ serialize (tBeaconState mainnet) v = b1 ++ x mod 16 :: b2).
Proof.
  apply state_exact; [|reflexivity|reflexivity|reflexivity].
  apply pair_mainnet with "BeaconState"%string; cbn; tauto.
Qed.
Lemma state_exact_minimal old b v : wt (tBeaconState minimal) old -> bytes_ok b ->
  (deserialize (tBeaconState minimal) old b = Ok (true, v) <->
   wt (tBeaconState minimal) v /\ offsets_fit (sBeaconState preset_minimal) v /\
   exists b1 x b2, zlen b1 = 6936 /\ b = b1 ++ x :: b2 /\ serialize (tBeaconState minimal) v = b1 ++ x mod 16 :: b2).
Proof.
  apply state_exact; [|reflexivity|reflexivity|reflexivity].
  apply pair_minimal with "BeaconState"%string; cbn; tauto.
Qed.

(** A state within the limits whose encoding is too long for its offsets. *)
Definition go_type (fs : list (string * sty)) (l : list val) : Prop := has_type (SContainer fs) (VSeq l).
Lemma replace_field fs : forall l i f v, go_type fs l -> nth_error fs i = Some f -> has_type (snd f) v ->
  exists l', go_type fs l' /\ nth_error l' i = Some v /\ length l' = length fs.
Proof.
  induction fs as [|[nm s] fs IH]; intros l i f v Hl Hf Hv; [destruct i; discriminate|].
  destruct l as [|w l]; [contradiction|]. destruct Hl as [Hw Hl]. destruct i as [|i]; cbn [nth_error] in Hf.
  - injection Hf as <-. exists (v :: l). split; [split; assumption|]. split; [reflexivity|]. cbn [length]. f_equal.
    clear -Hl. revert l Hl. induction fs as [|[nm s] fs IH]; intros [|w l] Hl; try contradiction; [reflexivity|].
    destruct Hl as [_ Hl]. cbn [length]. f_equal. exact (IH l Hl).
  - destruct (IH l i f v Hl Hf Hv) as (l' & A & B & C). exists (w :: l'). split; [split; assumption|]. cbn. auto.
Qed.
Lemma sum_ge l : Forall (fun x => 0 <= x) l -> forall i x n, nth_error l i = Some x -> (i < n)%nat -> x <= sumZ (firstn n l).
Proof.
  induction 1 as [|y l Hy Hl IH]; intros i x n E Hi; [destruct i; discriminate|]. destruct n; [lia|]. cbn [firstn].
  change (sumZ (y :: firstn n l)) with (y + sumZ (firstn n l)).
  assert (0 <= sumZ (firstn n l)).
  { clear - Hl. revert n. induction Hl as [|z l Hz _ IH]; intros [|n]; cbn [firstn]; unfold sumZ in *; cbn [fold_right]; try lia; specialize (IH n); lia. }
  destruct i as [|i]; cbn [nth_error] in E; [injection E as ->; lia|]. specialize (IH i x n E ltac:(lia)). lia.
Qed.
Lemma nth_error_es ss : forall l i s v, nth_error ss i = Some s -> nth_error l i = Some v ->
  nth_error (es_of ss l) i = Some (is_variable s, ssz_serialize s v).
Proof.
  unfold es_of. induction ss as [|s0 ss IH]; intros [|v0 l] [|i] s v E1 E2; try discriminate; cbn in E1, E2 |- *.
  - injection E1 as ->. injection E2 as ->. reflexivity.
  - now apply IH.
Qed.
Lemma zeros_typed n : has_type (SList SUint64 (2 ^ 40)) (VSeq (repeat (VNum 0) n)) <-> Z.of_nat n <= 2 ^ 40.
Proof.
  cbn [has_type]. unfold zlen. rewrite repeat_length. split; [tauto|]. intros H. split; [exact H|].
  apply Forall_repeat. cbn. lia.
Qed.
Lemma zeros_len n : zlen (ssz_serialize (SList SUint64 (2 ^ 40)) (VSeq (repeat (VNum 0) n))) = 8 * Z.of_nat n.
Proof.
  cbn [ssz_serialize is_variable]. rewrite series_len, map_map. induction n as [|n IH]; [reflexivity|].
  cbn [repeat map sumZ fold_right]. unfold sumZ in IH. rewrite IH. cbn [slot_size fst snd]. rewrite le_len. lia.
Qed.
Lemma large_state t p n : container_pair t (sBeaconState p) -> Z.of_nat n = 2 ^ 29 -> exists v, has_type (sBeaconState p) v /\
  forall old, wt t old -> deserialize t old (serialize t v) <> Ok (true, v).
Proof.
  intros Hp En. destruct (size_attained false _ (pair_natural t _ Hp)) as (v & Hv & _).
  destruct v as [| | | |l]; try contradiction. set (bal := VSeq (repeat (VNum 0) n)).
  assert (Hb : has_type (SList SUint64 (2 ^ 40)) bal) by (apply zeros_typed; lia).
  unfold sBeaconState in Hv at 1.
  match type of Hv with has_type (SContainer ?fs) _ =>
    destruct (replace_field fs l 12 ("balances"%string, SList Gwei (2 ^ 40)) bal Hv eq_refl Hb) as (l' & A & B & C) end.
  exists (VSeq l'). split; [exact A|]. intros old Ho. destruct (pair_solid t _ Hp) as (W & M & S).
  assert (Hw : wt t (VSeq l')) by (apply (matches_shape t _ _ M), typed_shape; exact A).
  rewrite (survives t _ (VSeq l') old W M Hw Ho).
  intros F. apply (fit_subs (sBeaconState p) l' eq_refl) in F; [|cbn [subs sBeaconState map length]; exact C]. destruct F as [F _].
  specialize (F 15%nat). set (ss := subs (sBeaconState p) l') in *.
  assert (Ln : length (es_of ss l') = 21%nat) by (rewrite es_of_length by exact C; reflexivity).
  rewrite Ln in F. specialize (F ltac:(lia)).
  destruct (nth_error l' 15) as [w|] eqn:Ew; [|apply nth_error_None in Ew; cbn [length] in C; lia].
  pose proof (nth_error_es ss l' 15 (SList (sPendingAttestation) (128 * p_slots_per_epoch p)) w eq_refl Ew) as E15.
  rewrite (nth_error_nth _ _ _ E15) in F. specialize (F eq_refl).
  pose proof (nth_error_es ss l' 12 (SList SUint64 (2 ^ 40)) bal eq_refl B) as E12.
  unfold offset_of in F.
  assert (G : 8 * Z.of_nat n <= sumZ (firstn 15 (variable_lengths (es_of ss l')))).
  { apply (sum_ge _) with (i := 12%nat); [|
      unfold variable_lengths, variable_parts; erewrite map_nth_error by (apply map_nth_error; exact E12); cbn [is_variable fst snd]; unfold bal; now rewrite zeros_len|lia].
    apply Forall_map, Forall_forall. intros e _. apply zlen_nonneg. }
  assert (0 <= sumZ (fixed_lengths (es_of ss l'))).
  { clear. generalize (es_of ss l') as es. induction es as [|[f q] es IH]; [cbn; lia|]. unfold fixed_lengths, sumZ in *. cbn [map fold_right fst snd].
    pose proof (zlen_nonneg q). destruct f; lia. }
  lia.
Qed.

Lemma accepted_range t s old b v : container_pair t s -> wt t old -> bytes_ok b -> deserialize t old b = Ok (true, v) ->
  min_size s <= zlen (serialize t v) <= zlen b /\
  (is_variable s = true -> zlen (serialize t v) = zlen b) /\
  (is_variable s = true -> max_size s < zlen b -> ~ has_type s v).
Proof.
  intros Hp Ho Hb E. destruct (accepted_size t s old b v Hp Ho Hb E) as (A & B & C). split; [auto|]. split; [exact C|].
  intros V L Hv. pose proof (sizes_bounded t s v Hp Hv). specialize (C V). lia.
Qed.
Lemma large_states : (exists v, has_type (sBeaconState preset_mainnet) v /\ forall old, wt (tBeaconState mainnet) old ->
    deserialize (tBeaconState mainnet) old (serialize (tBeaconState mainnet) v) <> Ok (true, v)) /\
  (exists v, has_type (sBeaconState preset_minimal) v /\ forall old, wt (tBeaconState minimal) old ->
    deserialize (tBeaconState minimal) old (serialize (tBeaconState minimal) v) <> Ok (true, v)).
Proof.
  assert (E : Z.of_nat (Z.to_nat (2 ^ 29)) = 2 ^ 29) by (apply Z2Nat.id; discriminate).
  split; apply (large_state _ _ (Z.to_nat (2 ^ 29))); auto.
  - apply pair_mainnet with "BeaconState"%string; cbn; tauto.
  - apply pair_minimal with "BeaconState"%string; cbn; tauto.
Qed.
Lemma within_containers name t s v old :
  In (name, t) (all_classes mainnet) /\ In (name, s) (phase0_containers preset_mainnet) \/
  In (name, t) (all_classes minimal) /\ In (name, s) (phase0_containers preset_minimal) ->
  name <> "BeaconState"%string -> has_type s v -> wt t old -> deserialize t old (serialize t v) = Ok (true, v).
Proof.
  intros H N Hv Ho. assert (Hp : container_pair t s).
  { destruct H as [[A B]|[A B]]; [now apply pair_mainnet with name|now apply pair_minimal with name]. }
  apply (within_round_trip t s v old Hp); auto. apply (small_max name s); tauto.
Qed.
