(** The theorems about reading test-vector YAML, for the containers. *)
From Coq Require Import ZArith String List Bool Lia ZifyBool ZifyNat.
From Verif Require Import Base SpecSSZ ModelSSZ ModelBytes ModelHashTree ModelTree ModelYaml SpecYaml SpecBytes SpecText SpecObj ModelEth
  SpecPhase0 SpecClasses Samples SamplesYaml LemBase LemBits LemBytes LemTy LemPred LemCheck LemThmCodec LemThmTree LemMatch LemYaml LemText LemDecode LemBind.
From Verif Require Import SpecTree.
Import ListNotations.
Open Scope string_scope.
Open Scope list_scope.
Open Scope Z_scope.

Lemma pair_facts t s : container_pair t s -> wf t = true /\ yaml_wf t = true /\ matches t s = true /\ same_names t s = true.
Proof.
  intros H. pose proof (container_pair_container t s H) as C. split; [now apply is_container_wf|].
  split; [now apply is_container_yaml|]. split; [now apply container_pair_matches|now apply container_pair_names].
Qed.
Lemma shown_parts e t s v old n : reads e -> wf t = true -> matches t s = true -> same_names t s = true ->
  wt t v -> wt t old -> shows s v n -> decode e t old n = Ok (true, v).
Proof. intros He W M N Hv Ho Hs. exact (shown e He t W s M N v old n Hv Ho Hs). Qed.
Lemma shown_container e t s v old n : reads e -> container_pair t s -> wt t v -> wt t old -> shows s v n ->
  decode e t old n = Ok (true, v).
Proof. intros He H Hv Ho Hs. destruct (pair_facts t s H) as (W & _ & M & N). exact (shown e He t W s M N v old n Hv Ho Hs). Qed.
Lemma vector_container e H t s v old n : reads e -> container_pair t s -> has_type s v -> wt t old -> shows s v n ->
  exists o, decode e t old n = Ok (true, o) /\
    serialize t o = ssz_serialize s v /\ hash_tree_root (hash_pairs H) t o = Ok (ssz_hash_tree_root H s v).
Proof.
  intros He Hc Hv Ho Hs. exists v. destruct (pair_facts t s Hc) as (W & _ & M & N).
  assert (Wv : wt t v) by (apply (matches_type t s v M); exact Hv).
  split; [exact (shown_container e t s v old n He Hc Wv Ho Hs)|].
  split; [now apply conformance|now apply root_containers].
Qed.
Lemma safe_container e t s old n : container_pair t s -> wt t old -> ascii n -> delimited s n -> decode e t old n <> UB.
Proof. intros H. destruct (pair_facts t s H) as (W & _ & M & N). exact (decode_safe e t W s M N old n). Qed.
Lemma safe_no_bitlist e t s old n : container_pair t s -> has_bitlist t = false -> wt t old -> ascii n -> decode e t old n <> UB.
Proof.
  intros H Hb Ho Ha. apply (safe_container e t s); auto. destruct (pair_facts t s H) as (W & _ & M & N).
  exact (no_bitlist_delimited t Hb s M n).
Qed.
Lemma empty_bitlist_ub e c t old : t = tAttestation c \/ t = tPendingAttestation c -> wt t old ->
  decode e t old (YMap [("aggregation_bits", YScalar [48; 120])]) = UB.
Proof. intros [->| ->] Ho; (destruct old as [| | | |l]; try contradiction Ho); reflexivity. Qed.
Lemma eight_bit_ub e n old ch : 0 < n -> ~ 0 <= ch < 128 -> decode e (TBytes n) old (YScalar [48; 120; ch]) = UB.
Proof.
  intros Hn Hc. unfold decode. cbn [yvt y_decode]. unfold bytes_decode. cbn [scalar_decode]. unfold bytes_from_str.
  cbn [prefix_0x]. change ((48 =? 48) && (120 =? 120)) with true. cbn [negb].
  destruct (Z.gtb_spec (zlen [48; 120; ch]) (2 * Z.of_nat (Z.to_nat n) + 2)) as [G|G]; [change (zlen [48; 120; ch]) with 3 in G; lia|].
  cbn [skipn bytes_from_str_loop]. unfold chars_to_byte, strhex2int. cbn [rev app strhex2int_loop].
  unfold hextoint. destruct ((0 <=? ch) && (ch <? 128)) eqn:E; [lia|]. reflexivity.
Qed.
Lemma history_container e t a b n : is_container t -> wt t a -> wt t b -> same_result (decode e t a n) (decode e t b n).
Proof. intros H. exact (decode_history e t (is_container_yaml t H) a b n). Qed.
Lemma complete_container e t s old n v : container_pair t s -> decode e t old n = Ok (true, v) -> complete s n.
Proof. intros H. destruct (pair_facts t s H) as (W & _ & M & N). exact (decode_complete e t W s M N old n v). Qed.
Lemma typed_container e t old n ok v : fits e -> is_container t -> wt t old -> decode e t old n = Ok (ok, v) -> wt t v.
Proof. intros He H. exact (decode_typed e He t (is_container_wf t H) (is_container_yaml t H) old n ok v). Qed.

(** ** Conversions as yaml-cpp does them *)
Lemma digits_nonneg s : forall a, digits s = true -> 0 <= a -> 0 <= fold_left (fun a ch => 10 * a + (ch - 48)) s a.
Proof.
  induction s as [|ch s IH]; intros a Hs Ha; cbn [fold_left digits forallb] in *; [exact Ha|].
  apply andb_true_iff in Hs. destruct Hs as [Hc Hs]. apply IH; [exact Hs|lia].
Qed.
Lemma strict_reads : reads strict_externals.
Proof.
  constructor; [|intros [|]; reflexivity]. intros s x Hx (Hn & Hd & _ & E). cbn [strict_externals text_num].
  assert (D : digits s = true).
  { unfold digits. apply forallb_forall. intros ch Hc. rewrite Forall_forall in Hd. specialize (Hd ch Hc). lia. }
  rewrite D. destruct (Z.eqb_spec (zlen s) 0) as [L|L]; [destruct s; [congruence|discriminate L]|].
  rewrite E. destruct (Z.ltb_spec x (2 ^ 64)); [reflexivity|lia].
Qed.
Lemma strict_fits : fits strict_externals.
Proof.
  intros s x. cbn [strict_externals text_num]. destruct (negb _ && _ && _) eqn:C; [|discriminate]. intros E.
  assert (x = digits_value s) by congruence. subst. rewrite !andb_true_iff in C. destruct C as [[_ D] L].
  apply Z.ltb_lt in L. split; [|exact L]. apply digits_nonneg; [exact D|lia].
Qed.

(** ** A node for every value *)
(** The names in every container are distinct. *)
Fixpoint names_distinct (s : sty) : bool :=
  match s with
  | SVector s' _ | SList s' _ => names_distinct s'
  | SContainer fs => distinct (map fst fs) && forallb (fun f => names_distinct (snd f)) fs
  | _ => true
  end.
Lemma names_distinct_mainnet : forallb (fun x => names_distinct (snd x)) (phase0_containers preset_mainnet) = true.
Proof. vm_compute. reflexivity. Qed.
Lemma names_distinct_minimal : forallb (fun x => names_distinct (snd x)) (phase0_containers preset_minimal) = true.
Proof. vm_compute. reflexivity. Qed.
Lemma pair_distinct t s : container_pair t s -> names_distinct s = true.
Proof.
  intros [n _ H|n _ H].
  - pose proof names_distinct_mainnet as F. rewrite forallb_forall in F. exact (F _ H).
  - pose proof names_distinct_minimal as F. rewrite forallb_forall in F. exact (F _ H).
Qed.
Lemma hex_shows l : bytes_ok l -> hex_string (hex_text l) l.
Proof. intros H. eexists. split; [reflexivity|]. now apply hex_bytes_text. Qed.
Lemma decimal_digits f : forall n, 0 <= n -> Forall (fun ch => 48 <= ch <= 57) (decimal f n).
Proof.
  induction f; intros n Hn; cbn [decimal]; [constructor|]. destruct (Z.ltb_spec n 10) as [L|L].
  - constructor; [lia|constructor].
  - apply Forall_app. split; [apply IHf, Z.div_pos; lia|]. constructor; [|constructor].
    pose proof (Z.mod_pos_bound n 10). lia.
Qed.
Lemma decimal_head f : forall n, 1 <= n -> (0 < f)%nat -> n < 10 ^ Z.of_nat f ->
  decimal f n <> [] /\ hd 0 (decimal f n) <> 48.
Proof.
  induction f; intros n Hn Hf Hl; [lia|]. cbn [decimal]. destruct (Z.ltb_spec n 10) as [L|L].
  - split; [discriminate|]. cbn [hd]. lia.
  - rewrite Nat2Z.inj_succ, Z.pow_succ_r in Hl by lia.
    assert (B : 1 <= n / 10 < 10 ^ Z.of_nat f).
    { split; [apply Z.div_le_lower_bound; lia|apply Z.div_lt_upper_bound; lia]. }
    destruct f as [|f]; [change (10 ^ Z.of_nat 0) with 1 in B; lia|].
    destruct (IHf (n / 10)) as [Ne Hd]; [lia|lia|lia|].
    destruct (decimal (S f) (n / 10)) as [|a r]; [congruence|]. split; [discriminate|exact Hd].
Qed.
Lemma decimal_shows x : 0 <= x < 2 ^ 64 -> decimal_number (decimal 20 x) x.
Proof.
  intros Hx. assert (x < 10 ^ Z.of_nat 20) by (change (10 ^ Z.of_nat 20) with 100000000000000000000; lia).
  unfold decimal_number. split; [|split; [|split]].
  - destruct (Z.eq_dec x 0) as [->|N]; [discriminate|]. apply decimal_head; lia.
  - apply decimal_digits. lia.
  - destruct (Z.eq_dec x 0) as [->|N]; [left; reflexivity|]. right. apply decimal_head; lia.
  - apply decimal_back. lia.
Qed.
Fixpoint show_fields (fs : list (string * sty)) (l : list val) : list (string * ynode) :=
  match fs, l with
  | (name, s') :: fs', v' :: l' => (name, show s' v') :: show_fields fs' l'
  | _, _ => []
  end.
Lemma show_shows s : names_distinct s = true -> forall v, has_type s v -> shows s v (show s v).
Proof.
  induction s using sty_ind'; intros Hd v Hv; destruct v; cbn [has_type names_distinct show shows] in *; try contradiction.
  - now apply decimal_shows.
  - reflexivity.
  - now apply hex_shows.
  - apply hex_shows. cbn [ssz_serialize]. apply le_bytes_ok.
  - apply hex_shows. cbn [ssz_serialize]. apply le_bytes_ok.
  - destruct Hv as [_ Hv]. induction Hv; cbn [map]; constructor; auto.
  - destruct Hv as [_ Hv]. induction Hv; cbn [map]; constructor; auto.
  - change (has_type (SContainer fs) (VSeq l)) in Hv.
    change (shows (SContainer fs) (VSeq l) (YMap (show_fields fs l))).
    apply andb_true_iff in Hd. destruct Hd as [Hn Hf]. apply distinct_nodup in Hn.
    cbn [shows]. split.
    + assert (E : map fst (show_fields fs l) = map fst fs); [|rewrite E; exact Hn].
      clear - Hv. revert l Hv. induction fs as [|[name s] fs IH]; intros [|v l] Hv; try contradiction Hv; [reflexivity|].
      destruct Hv as [_ Hv]. cbn [show_fields map fst]. f_equal. apply IH. exact Hv.
    + assert (G : forall m, (forall p, In p (show_fields fs l) -> In p m) ->
        (fix go (fs : list (string * sty)) (l : list val) : Prop :=
         match fs, l with
         | [], [] => True
         | (name, s') :: fs', v' :: l' => (exists n', In (name, n') m /\ shows s' v' n') /\ go fs' l'
         | _, _ => False
         end) fs l); [|apply G; auto].
      intros m. clear Hn. revert l Hv Hf. induction H as [|[name s] fs Hs _ IH]; intros [|v l] Hv Hf Hm; try contradiction Hv; [exact I|].
      destruct Hv as [Hv0 Hv]. cbn [forallb snd] in Hf. apply andb_true_iff in Hf. destruct Hf as [H0 Hf].
      cbn [show_fields] in Hm. split.
      * exists (show s v). split; [apply Hm; left; reflexivity|]. apply Hs; auto.
      * apply IH; auto. intros p Hp. apply Hm. right. exact Hp.
Qed.
Lemma show_container t s v : container_pair t s -> has_type s v -> exists n, shows s v n.
Proof. intros H Hv. exists (show s v). apply show_shows; [exact (pair_distinct t s H)|exact Hv]. Qed.

(** ** A concrete case: an attestation, with the keys backwards and one too many *)
Lemma smp_pair : container_pair (tAttestation mainnet) sAttestation.
Proof. apply pair_mainnet with (name := "Attestation"); cbv; tauto. Qed.
Lemma smp_has_type : has_type sAttestation smp_attestation.
Proof.
  apply (matches_type (tAttestation mainnet)); [reflexivity|]. split; [apply wtb_wt; reflexivity|].
  cbn. repeat split; try (unfold zlen; cbn; lia).
Qed.
Lemma smp_shown : shows sAttestation smp_attestation smp_node.
Proof.
  pose proof (show_shows sAttestation eq_refl smp_attestation smp_has_type) as [Hn H].
  split; [apply distinct_nodup; vm_compute; reflexivity|].
  destruct H as [(n1 & I1 & S1) [(n2 & I2 & S2) [(n3 & I3 & S3) _]]].
  assert (B : forall p m, In p m -> In p (("comment", YScalar [33]) :: rev m)).
  { intros p m Hp. right. rewrite <- in_rev. exact Hp. }
  split; [exists n1; auto|]. split; [exists n2; auto|]. split; [exists n3; auto|]. exact I.
Qed.

(** ** Text that is accepted though it does not show the value *)
Lemma short_bytes e old : reads e -> wt tFork old ->
  exists v, decode e tFork old short_fork = Ok (true, v) /\ ~ shows sFork v short_fork.
Proof.
  intros He Ho. destruct old as [| | | |l]; try contradiction Ho.
  destruct l as [|a [|b [|c [|? ?]]]]; cbn in Ho; try tauto.
  assert (E : text_num e [48] = Some 0).
  { apply (reads_number e He); [lia|]. repeat split; auto; [discriminate|repeat constructor; lia]. }
  exists (VSeq [VBytes [0; 0; 0; 0]; VBytes [0; 0; 0; 0]; VNum 0]). split.
  - unfold decode. cbn. unfold slot_decode. cbn. rewrite E. reflexivity.
  - cbn. intros [_ [(n & I1 & d) _]]. destruct I1 as [I1|[I1|[I1|[]]]]; try discriminate I1.
    injection I1 as <-. destruct d as (d & E1 & E2). injection E1 as <-. discriminate E2.
Qed.
Lemma short_bits e n old : decode e (TBitvector n) old (YScalar [48; 120]) = Ok (true, VBits (repeat false (Z.to_nat n))).
Proof. reflexivity. Qed.
Lemma long_bitlist e n old : 0 <= n ->
  exists str v, decode e (TBitlist n) old (YScalar str) = Ok (true, v) /\ ~ has_type (SBitlist n) v.
Proof.
  intros Hn. exists (hex_text (ssz_serialize (SBitlist (n + 1)) (VBits (repeat false (Z.to_nat (n + 1)))))).
  exists (VBits (repeat false (Z.to_nat (n + 1)))). split.
  - apply (bitlist_shown e n (n + 1)). apply hex_shows. apply le_bytes_ok.
  - cbn [has_type]. unfold zlen. rewrite repeat_length. lia.
Qed.
