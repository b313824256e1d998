(** C86: the events as bytes.  An event call determines its event, every event of a reachable state fits
    the fields of its struct, and with C82 the bytes of the calls determine the books. *)
From Coq Require Import Lia String Eqdep_dec.
From Verif Require Import Base Math State Handlers Token World Instr Exec Tactics Sums Spec Arith
  TokenFacts Inv Acct Funs Steps Init Preserve Reach Did Trans Flow Scenario P_Solvency P_Access
  P_History P_Arith P_Payout P_Merkle P_Events P_Index Sha256 Layout P_Width Borsh P_Borsh EventWire.

(** * Discriminators *)

(** The tags as bytes, so that each hash is computed once. *)
Definition ev_tag (n : vname) : bytes :=
  match n with
  | VFixedCreate => [150; 2; 196; 99; 99; 233; 14; 134]
  | VFixedClose => [232; 209; 108; 196; 129; 150; 155; 161]
  | VPresaleCreate => [215; 193; 132; 209; 72; 47; 198; 176]
  | VEscrowCreate => [206; 39; 252; 12; 21; 45; 79; 56]
  | VMerkleCreate => [124; 71; 226; 147; 30; 112; 202; 20]
  | VDeposit => [245; 7; 99; 173; 152; 218; 66; 168]
  | VWithdraw => [149; 193; 150; 199; 244; 166; 129; 114]
  | VClaim => [219; 247; 169; 104; 92; 196; 174; 1]
  | VRemaining => [128; 150; 147; 65; 211; 26; 124; 208]
  | VUnsold => [101; 134; 249; 143; 220; 171; 228; 130]
  | VEscrowClose => [25; 236; 63; 221; 35; 39; 134; 197]
  | VCreatorWithdraw => [88; 189; 89; 236; 7; 65; 245; 77]
  | VRefresh => [122; 224; 203; 206; 253; 154; 149; 172]
  | VOperatorCreate => [102; 33; 72; 210; 83; 100; 255; 79]
  | VServerCreate => [103; 183; 81; 175; 100; 254; 206; 232]
  | VServerClose => [205; 49; 203; 99; 89; 22; 127; 111]
  | VCollectFee => [47; 82; 115; 255; 214; 26; 54; 104]
  | VMerkleClose => [53; 163; 181; 111; 52; 57; 17; 250]
  end.
Theorem C86_tags n : event_discriminator n = ev_tag n.
Proof. destruct n; vm_compute; reflexivity. Qed.

Lemma all_events_all n : In n all_events.
Proof. destruct n; cbn; tauto. Qed.
Lemma vname_string_inj n m : vname_string n = vname_string m -> n = m.
Proof. destruct n, m; intros He; try reflexivity; discriminate He. Qed.
Lemma ev_tags_inj_b :
  forallb (fun n => forallb (fun m => negb (bool_decide (ev_tag n = ev_tag m)) ||
    String.eqb (vname_string n) (vname_string m)) all_events) all_events = true.
Proof. vm_compute. reflexivity. Qed.
Theorem C86_discriminators n m : event_discriminator n = event_discriminator m -> n = m.
Proof.
  intros He. rewrite !C86_tags in He. pose proof ev_tags_inj_b as Hb. rewrite forallb_forall in Hb.
  specialize (Hb _ (all_events_all n)). rewrite forallb_forall in Hb. specialize (Hb _ (all_events_all m)).
  rewrite (bool_decide_eq_true_2 _ He) in Hb. cbn [negb orb] in Hb.
  apply String.eqb_eq in Hb. apply vname_string_inj. exact Hb.
Qed.
Lemma ev_tag_length n : List.length (event_discriminator n) = 8%nat.
Proof. rewrite C86_tags. destruct n; reflexivity. Qed.
Lemma ev_tag_u8 n : forallb in_u8 (event_discriminator n) = true.
Proof. rewrite C86_tags. destruct n; reflexivity. Qed.

Lemma find_event data n : take 8 data = event_discriminator n ->
  List.find (fun n => bool_decide (take 8 data = event_discriminator n)) all_events = Some n.
Proof.
  intros Hd. destruct (List.find _ all_events) as [m|] eqn:Hf.
  - apply find_some in Hf as [_ Hm]. apply bool_decide_eq_true in Hm. f_equal. apply C86_discriminators. congruence.
  - exfalso. pose proof (find_none _ _ Hf _ (all_events_all n)) as Hn. cbv beta in Hn.
    apply bool_decide_eq_false in Hn. auto.
Qed.

(** * Structs *)

#[local] Hint Resolve lawful_int lawful_array lawful_pair lawful_string : lawful.

Lemma lawful_regs : lawful (c_vec c_registry_args).
Proof.
  apply lawful_vec.
  - apply nonempty_iso, nonempty_pair, nonempty_int.
  - apply lawful_iso.
    + intros [[] ?]; reflexivity.
    + intros (?&?&?&?&?); reflexivity.
    + unfold c_u64, c_u16. auto 20 with lawful.
Qed.
Lemma lawful_ev n : lawful (ev_codec n).
Proof.
  destruct n; cbn [ev_codec ev_payload]; unfold c_key, c_u64, c_u128, c_u8;
    auto 30 using lawful_regs with lawful.
Qed.

(** What is emitted is what a reader decodes. *)
Theorem C86_round_trip x rest : wev_valid x = true -> decode_ev (encode_ev x ++ rest) = Some (x, rest).
Proof.
  intros Hv. unfold decode_ev, encode_ev. rewrite <- app_assoc.
  assert (Ht : take 8 (event_discriminator (wev_name x) ++ enc (ev_codec (wev_name x)) (wev_args x) ++ rest)
    = event_discriminator (wev_name x)) by (rewrite take_app_alt; [reflexivity|symmetry; apply ev_tag_length]).
  rewrite (find_event _ _ Ht). rewrite drop_app_alt by (symmetry; apply ev_tag_length).
  rewrite (law_dec _ (lawful_ev _)) by exact Hv. destruct x. reflexivity.
Qed.

(** Whatever a reader decodes is such an encoding, with all fields in the range of their types. *)
Theorem C86_canonical data x rest : forallb in_u8 data = true -> decode_ev data = Some (x, rest) ->
  wev_valid x = true /\ data = encode_ev x ++ rest.
Proof.
  intros Hb Hd. unfold decode_ev in Hd.
  destruct (List.find _ all_events) as [n|] eqn:Hf; [|discriminate Hd].
  apply find_some in Hf as [_ Hn]. apply bool_decide_eq_true in Hn.
  destruct (dec (ev_codec n) (drop 8 data)) as [[v r]|] eqn:Hv; [|discriminate Hd]. injection Hd as <- <-.
  rewrite <- (take_drop 8 data), u8_app in Hb. destruct Hb as [_ Hb].
  apply (law_enc _ (lawful_ev n)) in Hv as [Hv He]; [|exact Hb]. split; [exact Hv|].
  unfold encode_ev. cbn [wev_name wev_args]. rewrite <- app_assoc, <- He, <- Hn, take_drop. reflexivity.
Qed.

(** No event call has the data of two events, and none has the data of an instruction. *)
Theorem C86_unambiguous x y r1 r2 : wev_valid x = true -> wev_valid y = true ->
  event_call x ++ r1 = event_call y ++ r2 -> x = y /\ r1 = r2.
Proof.
  intros Hx Hy He. unfold event_call in He. rewrite <- !app_assoc in He. apply app_inv_head in He.
  pose proof (C86_round_trip x r1 Hx) as E1. rewrite He, (C86_round_trip y r2 Hy) in E1.
  injection E1 as -> ->. split; reflexivity.
Qed.
Theorem C86_not_an_instruction x i r1 r2 : event_call x ++ r1 <> encode_ix i ++ r2.
Proof.
  intros He. apply (f_equal (take 8)) in He. unfold event_call, encode_ix in He. rewrite <- !app_assoc in He.
  rewrite take_app_alt in He by reflexivity. rewrite take_app_alt in He by (symmetry; apply ix_discriminator_length).
  destruct (C73_discriminators_apart (ix_name i)) as [Hn _]. apply Hn. symmetry. exact He.
Qed.

Section WithCrypto.
Context `{Crypto}.

(** * The event of a call *)

Definition collision : Prop := exists a b, a <> b /\ addr_bytes a = addr_bytes b.
Lemma key_eq a b : addr_bytes a = addr_bytes b -> a = b \/ collision.
Proof. intros He. destruct (decide (a = b)) as [->|Hn]; [auto|]. right. exists a, b. auto. Qed.

Lemma vname_dec (n m : vname) : {n = m} + {n <> m}.
Proof. decide equality. Qed.
Lemma wev_inj n v v' : mkWev n v = mkWev n v' -> v = v'.
Proof.
  intros He. pose proof (f_equal (fun x => existT (wev_name x) (wev_args x)) He) as Hx. cbn in Hx.
  apply inj_pair2_eq_dec in Hx; [exact Hx|apply vname_dec].
Qed.
Lemma zip_inj (r1 r2 : list registry_args) (p1 p2 : list bytes) :
  List.length p1 = List.length r1 -> List.length p2 = List.length r2 -> zip r1 p1 = zip r2 p2 -> r1 = r2.
Proof.
  intros H1 H2 He. rewrite <- (fst_zip r1 p1), <- (fst_zip r2 p2) by lia. rewrite He. reflexivity.
Qed.

Ltac keys := repeat match goal with
  | X : addr_bytes _ = addr_bytes _ |- _ => destruct (key_eq _ _ X) as [->|?]; [clear X|right; assumption]
  end.
Lemma wire_inj p1 p2 e1 e2 : pads_ok p1 e1 -> pads_ok p2 e2 -> wire p1 e1 = wire p2 e2 -> e1 = e2 \/ collision.
Proof.
  intros H1 H2 He. pose proof (f_equal wev_name He) as Hn.
  destruct e1, e2; cbn in Hn; try discriminate Hn; clear Hn; cbn [wire] in He; apply wev_inj in He;
    injection He; clear He; intros; subst; keys; try (left; reflexivity).
  left. f_equal. destruct H1, H2. eapply zip_inj; eassumption.
Qed.

(** The data of an event call belongs to one event only, unless two addresses have the same bytes. *)
Theorem C86_one_event e1 e2 data : says e1 data -> says e2 data -> e1 = e2 \/ collision.
Proof.
  intros (p1 & H1 & V1 & ->) (p2 & H2 & V2 & He).
  destruct (C86_unambiguous (wire p1 e1) (wire p2 e2) [] [] V1 V2) as [Hw _]; [rewrite !app_nil_r; exact He|].
  eapply wire_inj; eassumption.
Qed.

(** * Events of reachable states *)

Definition keys_ok : Prop := forall a, valid (c_array 32) (addr_bytes a) = true.
(** The server address comes from decoded instruction data (C73_canonical), where it is a [String]. *)
Definition url_ok (o : op) : Prop := match o with ICreateServer _ _ url => valid c_string url = true | _ => True end.

Lemma pair_valid {A B} (c : codec A) (d : codec B) x y :
  valid c x = true -> valid d y = true -> valid (c_pair c d) (x, y) = true.
Proof. intros Hx Hy. cbn. rewrite Hx, Hy. reflexivity. Qed.
Lemma u8_valid z : fits U8MAX z -> valid c_u8 z = true.
Proof. unfold fits, U8MAX. intros Hz. cbn -[Z.pow]. change (2 ^ (8 * 1)) with 256. lia. Qed.
Lemma u16_valid z : fits U16MAX z -> valid c_u16 z = true.
Proof. unfold fits, U16MAX. intros Hz. cbn -[Z.pow]. change (2 ^ (8 * 2)) with 65536. lia. Qed.
Lemma u64_valid z : fits U64MAX z -> valid c_u64 z = true.
Proof. unfold fits, U64MAX. intros Hz. cbn -[Z.pow]. change (2 ^ (8 * 8)) with (2 ^ 64). lia. Qed.
Lemma u128_valid z : fits U128MAX z -> valid c_u128 z = true.
Proof. unfold fits, U128MAX. intros Hz. cbn -[Z.pow]. change (2 ^ (8 * 16)) with (2 ^ 128). lia. Qed.

Lemma regs_valid regs pads : Forall (fun x => valid c_registry_args (x, zeros 32) = true) regs ->
  List.length pads = List.length regs -> Forall (fun b => valid (c_array 32) b = true) pads ->
  Z.of_nat (List.length regs) < 2 ^ 32 -> valid (c_vec c_registry_args) (zip regs pads) = true.
Proof.
  intros Hr Hl Hp Hn. cbn [valid c_vec]. rewrite zip_with_length_l by lia. apply andb_true_iff. split; [lia|]. clear Hn.
  revert pads Hl Hp. induction Hr as [|x regs Hx Hr IH]; intros [|b pads] Hl Hp; try discriminate Hl; [reflexivity|].
  inversion_clear Hp. cbn [zip zip_with forallb]. rewrite IH; [|cbn in Hl; lia|assumption]. rewrite andb_true_r.
  cbn [valid c_registry_args c_iso c_pair fst snd] in Hx |- *. rewrite !andb_true_iff in Hx |- *. tauto.
Qed.

(** What arrives of a transfer is between nothing and all of it. *)
Lemma transfer_net w pr src mk dst auth n ok w1 lx m :
  inv w -> tok_transfer w pr src mk dst auth n ok = Ok (w1, lx) -> w_mints w !! mk = Some m -> 0 <= n ->
  fits U64MAX n /\ fits U64MAX (n - tok_fee m n).
Proof.
  intros Hi Ht Hm Hn. apply tok_transfer_inv in Ht as (m0 & s & d & dl & _ & Hs & _ & _ & Hle & _).
  pose proof (tk_amount_u64 _ _ _ (i_tokens _ Hi) Hs). pose proof (tok_fee_range m n (tk_fee _ (i_tokens _ Hi) _ _ Hm) Hn).
  unfold fits. lia.
Qed.
Lemma paid_net w pr src mk dst n ok w1 lx m :
  inv w -> paid w pr src mk dst n ok w1 lx -> w_mints w !! mk = Some m -> 0 <= n -> fits U64MAX (n - tok_fee m n).
Proof.
  intros Hi [[_ Hx]|(Hz & _ & _)] Hm Hn.
  - eapply transfer_net; eassumption.
  - pose proof (tok_fee_range m n (tk_fee _ (i_tokens _ Hi) _ _ Hm) Hn). unfold fits, U64MAX. lia.
Qed.
Lemma burn_fits w pr src mk auth n w1 lx :
  inv w -> tok_burn w pr src mk auth n = Ok (w1, lx) -> 0 <= n -> fits U64MAX n.
Proof.
  intros Hi Ht Hn. apply tok_burn_inv in Ht as (m0 & s & dl & _ & Hs & _ & Hle & _).
  pose proof (tk_amount_u64 _ _ _ (i_tokens _ Hi) Hs). unfold fits. lia.
Qed.

Ltac all_fit Hf := inversion_clear Hf; repeat match goal with X : Forall _ (_ :: _) |- _ => inversion_clear X end.
Ltac fields Hk := cbn [wev_valid wire wev_name wev_args ev_codec];
  repeat first [apply pair_valid | apply u8_valid | apply u64_valid | apply u128_valid | apply Hk].

Theorem C86_events_fit w o w' l ev pads :
  keys_ok -> reachable w -> step w o = Ok (w', l) -> url_ok o -> ev ∈ events l -> pads_ok pads ev ->
  wev_valid (wire pads ev) = true.
Proof.
  intros Hk Hw Hs Hurl Hin Hpads. pose proof (reachable_inv _ Hw) as Hi.
  assert (Hw' : reachable w').
  { replace w' with (exec w o) by (unfold exec; rewrite Hs; reflexivity). apply reachable_step. assumption. }
  pose proof (C70_fields_fit _ Hw) as F. pose proof (C70_fields_fit _ Hw') as F'.
  apply elem_events in Hin. pose proof (truthful_event _ _ _ _ _ Hw Hs Hin) as Ht.
  destruct ev; cbn [truthful] in Ht; unfold wev_valid.
  - destruct Ht as (ow & py & dw & x & _ & _ & Hx & _ & <-). fields Hk. apply (xf_price _ (wf_fixed _ F' _ _ Hx)).
  - destruct Ht as (base & pt & cr & py & bp & qp & a & h & p & -> & _ & Hp & _ & _ & <- & <- & <- & <- & Hst & <- & <- & <- & Hn & Hr).
    assert (Hstart : start = pa_start (ia_params a) /\ fits U64MAX (pa_start (ia_params a))).
    { cbn [step] in Hs. apply init_inv in Hs as (bm' & qm' & p' & rest & hooks & rest' & pool & amount & w2 & fx & Hdec & _ & _ & _ & _ & _ & Hkk & _ & _ & _ & _ & _ & _ & _ & _ & _ & _ & _ & _ & Htr & _ & ->).
      apply elem_events in Hin. rewrite events_last in Hin by (eapply transfer_silent; exact Htr).
      apply elem_of_list_singleton in Hin. injection Hin. intros. split; [assumption|].
      unfold init_args_decode, presale_args_decode in Hdec. repeat (apply andb_true_iff in Hdec as [Hdec ?]).
      match goal with X : in_u64 (pa_start _) = true |- _ => revert X end. clear. unfold in_u64, fits. lia. }
    destruct Hstart as [-> Hstart]. destruct Hpads as [Hl Hpd].
    pose proof (wf_presales _ F' _ _ Hp) as Hf. pose proof (pf_u8 _ Hf) as F8. pose proof (pf_u64 _ Hf) as F64.
    destruct (pf_regs _ Hf) as [_ Freg].
    fields Hk; try (all_fit F8; assumption); try (all_fit F64; assumption).
    apply regs_valid; [|assumption|assumption|].
    + apply List.Forall_forall. intros x Hx. apply elem_of_list_In, elem_of_list_lookup in Hx as [i Hx].
      destruct (Hr _ _ Hx) as (r & Hri & H1 & H2 & H3 & H4).
      rewrite Forall_lookup in Freg. destruct (Freg _ _ Hri) as [R64 R16].
      cbn [valid c_registry_args c_iso fst snd]. rewrite <- H1, <- H2, <- H3, <- H4. do 3 (apply pair_valid; [apply u64_valid; all_fit R64; assumption|]).
      apply pair_valid; [apply u16_valid; exact R16|reflexivity].
    + rewrite <- Hn. all_fit F8. unfold fits, U8MAX in *. lia.
  - destruct Ht as (idx & p & p' & e & _ & [Hp Hp'] & _ & _ & _ & _ & -> & -> & _).
    pose proof (pf_u8 _ (wf_presales _ F _ _ Hp)) as F8. pose proof (pf_u64 _ (wf_presales _ F' _ _ Hp')) as F64.
    fields Hk; [all_fit F8|all_fit F64]; assumption.
  - destruct Ht as (p & x & _ & _ & _ & _ & Hx & _ & <- & <-). destruct (wf_merkles _ F' _ _ Hx) as [[Hl Hr] Hv].
    fields Hk; [exact Hv|]. cbn [valid c_array]. rewrite Hl. cbn [Nat.eqb andb]. apply forallb_forall. intros z Hz.
    rewrite List.Forall_forall in Hr. specialize (Hr _ Hz). unfold fits, in_u8 in *. lia.
  - destruct Ht as (qv & qm & pt & pr & mx & h & e & e' & p & p' & -> & [_ He'] & [_ Hp'] & _ & _ & _ & _ & _ & -> & -> & _).
    cbn [step] in Hs. apply deposit_did in Hs; [|assumption]. destruct Hs as (p1 & p2 & e1 & r & m & am & fe & gr & w1 & lx & D).
    destruct D. subst l. rest_of dd_transfer. apply elem_events in Hin.
    rewrite events_last in Hin by (eapply transfer_silent; exact dd_transfer).
    apply elem_of_list_singleton in Hin. injection Hin as -> _ _ ->. destruct dd_mint as [-> Hm].
    destruct (transfer_net _ _ _ _ _ _ _ _ _ _ _ Hi dd_transfer Hm) as [Hg _]; [lia|].
    pose proof (ef_u64 _ (wf_escrows _ F' _ _ He')) as E64. pose proof (pf_u64 _ (wf_presales _ F' _ _ Hp')) as F64.
    fields Hk; [|all_fit E64; assumption|all_fit F64; assumption|]; unfold fits in *; lia.
  - destruct Ht as (qv & qm & ot & pr & mx & h & e & e' & p & p' & g & -> & [_ He'] & [_ Hp'] & _ & _ & _ & _ & -> & -> & _).
    cbn [step] in Hs. apply withdraw_did in Hs; [|assumption]. destruct Hs as (p1 & e1 & r & m & am & w1 & lx & D).
    destruct D. subst l. rest_of dw_transfer. apply elem_events in Hin.
    rewrite events_last in Hin by (eapply transfer_silent; exact dw_transfer).
    apply elem_of_list_singleton in Hin. injection Hin as -> _ _. destruct dw_mint as [-> Hm].
    destruct (transfer_net _ _ _ _ _ _ _ _ _ _ _ Hi dw_transfer Hm) as [_ Hg]; [lia|].
    pose proof (ef_u64 _ (wf_escrows _ F' _ _ He')) as E64. pose proof (pf_u64 _ (wf_presales _ F' _ _ Hp')) as F64.
    fields Hk; [exact Hg|all_fit E64; assumption|all_fit F64; assumption].
  - destruct Ht as (bv & bm & ot & pr & h & e & e' & p & p' & g & -> & [_ He'] & [_ Hp'] & _ & _ & _ & _ & -> & -> & _).
    cbn [step] in Hs. apply claim_did in Hs; [|assumption]. destruct Hs as (p1 & e1 & r & m & w1 & lx & D).
    destruct D. subst l. apply elem_events in Hin. rewrite events_last in Hin by (eapply paid_silent; exact dm_paid).
    apply elem_of_list_singleton in Hin. injection Hin as -> _ _. destruct dm_mint as [-> Hm].
    pose proof (paid_net _ _ _ _ _ _ _ _ _ _ Hi dm_paid Hm dm_due) as Hg.
    pose proof (ef_u64 _ (wf_escrows _ F' _ _ He')) as E64. pose proof (pf_u64 _ (wf_presales _ F' _ _ Hp')) as F64.
    fields Hk; [exact Hg|all_fit E64; assumption|all_fit F64; assumption].
  - destruct Ht as (qv & qm & ot & pr & h & e & e' & p & p' & g & -> & _ & [_ Hp'] & _ & _ & _ & _ & _ & -> & _).
    cbn [step] in Hs. apply refund_did in Hs; [|assumption]. destruct Hs as (p1 & e1 & r & m & w1 & lx & D).
    destruct D. subst l. apply elem_events in Hin. rewrite events_last in Hin by (eapply paid_silent; exact dr_paid).
    apply elem_of_list_singleton in Hin. injection Hin as -> _. destruct dr_mint as [-> Hm].
    pose proof (paid_net _ _ _ _ _ _ _ _ _ _ Hi dr_paid Hm (proj1 dr_amount)) as Hg.
    pose proof (pf_u64 _ (wf_presales _ F' _ _ Hp')) as F64. fields Hk; [exact Hg|all_fit F64; assumption].
  - destruct Ht as (bv & bm & ct & pr & h & p & p' & m & -> & _ & _ & _ & _ & Hn & _ & Hact).
    cbn [step] in Hs. apply unsold_did in Hs; [|assumption]. destruct Hs as (p1 & m1 & w1 & lx & D).
    destruct D. subst l. destruct du_mint as [-> Hm].
    assert (Hq : fits U64MAX (Spec.unsold p1)).
    { destruct du_what as [[_ Hx]|[_ Hx]]; [eapply burn_fits; [exact Hi|exact Hx|lia]|].
      eapply (transfer_net _ _ _ _ _ _ _ _ _ _ m1); [exact Hi|exact Hx|assumption|lia]. }
    apply elem_events in Hin. rewrite events_last in Hin by
      (destruct du_what as [[_ Hx]|[_ Hx]]; [eapply burn_silent; exact Hx|eapply transfer_silent; exact Hx]).
    apply elem_of_list_singleton in Hin. injection Hin as Hun _. rewrite Hun.
    fields Hk; [exact Hq|]. unfold fits, U8MAX. lia.
  - fields Hk.
  - destruct Ht as (ot & pr & h & p & p' & g & -> & _ & _ & _ & _ & Hpr).
    cbn [step] in Hs. apply creator_did in Hs; [|assumption]. destruct Hs as (p1 & m & w1 & lx & D). destruct D.
    assert (Hg : fits U64MAX amount).
    { destruct dcw_what as [(Hg & Hm & Hx & ->)|(Hg & Hm & Hx & ->)]; apply elem_events in Hin;
        rewrite events_last in Hin by (eapply transfer_silent; exact Hx); apply elem_of_list_singleton in Hin;
        injection Hin as -> _; eapply (transfer_net _ _ _ _ _ _ _ _ _ _ m); [exact Hi|exact Hx|assumption| |exact Hi|exact Hx|assumption|].
      - destruct Hg as [H1 H2]. destruct (creator_room _ _ _ dcw_ok H1 dcw_once) as [Hr _]. specialize (Hr H2). lia.
      - pose proof (supply_nonneg _ _ (q_cfg _ _ _ dcw_ok)). lia. }
    fields Hk; [exact Hg|]. unfold fits, U8MAX. lia.
  - destruct Ht as (e & e' & _ & [_ He'] & _ & _ & _ & -> & ->).
    pose proof (ef_u64 _ (wf_escrows _ F' _ _ He')) as E64. pose proof (now_u64 _ Hi).
    fields Hk; [assumption|all_fit E64; assumption].
  - fields Hk.
  - destruct Ht as (ow & x & -> & _). fields Hk. exact Hurl.
  - fields Hk.
  - destruct Ht as (qv & qm & rcv & pr & h & p & p' & -> & _).
    cbn [step] in Hs. apply fee_did in Hs; [|assumption]. destruct Hs as (p1 & m & w1 & lx & D). destruct D. subst l.
    apply elem_events in Hin. rewrite events_last in Hin by (eapply paid_silent; exact dfe_paid).
    apply elem_of_list_singleton in Hin. injection Hin as ->. destruct dfe_mint as [-> Hm].
    pose proof (paid_net _ _ _ _ _ _ _ _ _ _ Hi dfe_paid Hm (proj1 dfe_amount)) as Hg. fields Hk. exact Hg.
  - fields Hk.
Qed.

(** * Books from bytes *)

(** [data] are the event calls of the history [l]. *)
Definition log_says (l : list op) (data : list bytes) : Prop := Forall2 says (event_log genesis l) data.

Lemma log_one l1 l2 data : log_says l1 data -> log_says l2 data ->
  event_log genesis l1 = event_log genesis l2 \/ collision.
Proof.
  unfold log_says. generalize (event_log genesis l1) (event_log genesis l2). intros a b Ha. revert b.
  induction Ha as [|e d a data He Ha IH]; intros b Hb; inversion Hb as [|e' d' b' data' He' Hb']; subst; [auto|].
  destruct (C86_one_event _ _ _ He He') as [->|]; [|auto]. destruct (IH _ Hb') as [->|]; auto.
Qed.

(** A reader of nothing but the data of the event calls knows the books of every presale and escrow. *)
Theorem C86_books_from_bytes l1 l2 data k p1 p2 ek e1 e2 :
  log_says l1 data -> log_says l2 data ->
  ((w_presales (run genesis l1) !! k = Some p1 -> w_presales (run genesis l2) !! k = Some p2 ->
    p_deposit p1 = p_deposit p2 /\ p_fee p1 = p_fee p2 /\ p_claimed p1 = p_claimed p2 /\
    p_refunded p1 = p_refunded p2 /\ p_escrows p1 = p_escrows p2) /\
   (w_escrows (run genesis l1) !! ek = Some e1 -> w_escrows (run genesis l2) !! ek = Some e2 ->
    e_deposit e1 = e_deposit e2 /\ e_fee e1 = e_fee e2 /\ e_claimed e1 = e_claimed e2 /\
    e_pending e1 = e_pending e2)) \/ collision.
Proof.
  intros H1 H2. destruct (log_one _ _ _ H1 H2) as [He|]; [left|auto]. apply C82_same_events. exact He.
Qed.

(** Every history has such data, for any paddings. *)
Theorem C86_always_said l : keys_ok -> Forall url_ok l -> exists data, log_says l data.
Proof.
  intros Hk. unfold log_says. induction l as [|o l IH] using rev_ind; intros Hl.
  - exists []. constructor.
  - apply Forall_app in Hl as [Hl Ho]. inversion_clear Ho as [|? ? Ho' _]. rename Ho' into Ho. destruct (IH Hl) as [data Hd].
    rewrite event_log_snoc. destruct (step (run genesis l) o) as [[w' x]|] eqn:Hs; [|exists data; rewrite app_nil_r; exact Hd].
    assert (Hx : exists d, Forall2 says (events x) d).
    { assert (Hall : forall ev, ev ∈ events x -> exists b, says ev b).
      { intros ev Hin. exists (event_call (wire (match ev with
          EvtPresaleVaultCreate _ _ regs _ _ _ _ _ _ _ _ => map (fun _ => zeros 32) regs | _ => [] end) ev)).
        eexists. split; [|split; [|reflexivity]].
        - destruct ev; cbn; try exact I. rewrite map_length. split; [reflexivity|].
          apply List.Forall_forall. intros b Hb. apply in_map_iff in Hb as (? & <- & _). reflexivity.
        - apply (C86_events_fit (run genesis l) o w' x); try assumption; [exists l; reflexivity|].
          destruct ev; cbn; try exact I. rewrite map_length. split; [reflexivity|].
          apply List.Forall_forall. intros b Hb. apply in_map_iff in Hb as (? & <- & _). reflexivity. }
      revert Hall. generalize (events x). intros evs. induction evs as [|ev evs IHe]; intros Hall; [exists []; constructor|].
      destruct (Hall ev) as [b Hb]; [left|]. destruct IHe as [d Hd2]; [intros; apply Hall; right; assumption|].
      exists (b :: d). constructor; assumption. }
    destruct Hx as [d Hx]. exists (data ++ d). apply Forall2_app; assumption.
Qed.

End WithCrypto.

(** * Examples *)

(** A creation event with two registries, to bytes and back; a cut is rejected. *)
Definition ex_create : wev := mkWev VPresaleCreate
  (zeros 32, (map (fun _ => 7) (zeros 32), ([(mkRegArgs 1 1000 5000 100, zeros 32); (mkRegArgs 2 9 50 0, zeros 32)],
   (10, (100, (2, (1, (1000, (2000, (1000, 100)))))))))).
Example C86_met :
  let data := encode_ev ex_create in
  (wev_valid ex_create, decode_ev data, decode_ev (take 241 data), List.length data) =
  (true, Some (ex_create, []), None, 242%nat).
Proof. vm_compute. reflexivity. Qed.

#[local] Existing Instance toy.
Example C86_keys_met : keys_ok.
Proof. intros a. cbn [valid c_array addr_bytes toy]. rewrite le_bytes_length, le_bytes_u8. reflexivity. Qed.
Lemma no_server_url l : forallb (fun o => match o with ICreateServer _ _ _ => false | _ => true end) l = true -> Forall url_ok l.
Proof.
  intros Hl. apply List.Forall_forall. intros o Ho. rewrite forallb_forall in Hl. specialize (Hl _ Ho).
  destruct o; try exact I. discriminate Hl.
Qed.
Example C86_history_met : Forall url_ok pr_paid /\ List.length (event_log genesis pr_paid) = 15%nat.
Proof. split; [apply no_server_url; vm_compute; reflexivity|vm_compute; reflexivity]. Qed.
