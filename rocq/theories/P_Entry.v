(** C74, C75: the entry point.  Calls (accounts with flags and bytes of data) and the operations of the
    model are the same thing, up to arguments that have no encoding; accepted calls carry the
    signatures and the writable accounts they need. *)
From Coq Require Import Lia String.
From Verif Require Import Base Math State Handlers Token World Instr Exec Spec Tactics Sha256 Layout Borsh Entry
  TokenFacts Inv Acct Funs Steps Init Preserve Reach Did Trans Flow P_Access P_Merkle P_Layout P_Borsh Scenario.

(** * Specification *)

(** The accounts that have to sign each instruction: the [Signer] fields *)
Definition signers_of (o : op) : list addr :=
  match o with
  | IInitFixedArgs _ _ payer _ _ => [payer]
  | ICloseFixedArgs _ owner => [owner]
  | IInitPresale base _ _ _ _ payer _ _ _ _ => [base; payer]
  | ICreateMerkle _ creator _ _ => [creator]
  | ICloseMerkle _ _ creator _ => [creator]
  | IEscrowPermissionless _ _ payer => [payer]
  | IEscrowCreator _ _ _ operator_owner payer _ _ => [operator_owner; payer]
  | IEscrowMerkle _ _ _ payer _ _ _ => [payer]
  | ICreateOperator _ creator => [creator]
  | IRevokeOperator _ creator => [creator]
  | IDeposit _ _ _ _ _ payer _ _ _ => [payer]
  | IWithdraw _ _ _ _ _ owner _ _ _ => [owner]
  | IClaim _ _ _ _ _ owner _ _ => [owner]
  | IWithdrawRemaining _ _ _ _ _ owner _ _ => [owner]
  | ICloseEscrow _ _ owner _ => [owner]
  | ICreatorWithdraw _ _ owner _ _ => [owner]
  | ICreateServer _ owner _ => [owner]
  | ICloseServer _ _ owner _ => [owner]
  | ICollectFee _ _ _ _ owner _ _ => [owner]
  | _ => []
  end.
(** The accounts declared [mut] (or created or closed) *)
Definition writes_of (o : op) : list addr :=
  match o with
  | IInitFixedArgs k _ payer _ _ => [PFixedArgs k; payer]
  | ICloseFixedArgs args owner => [args; owner]
  | IInitPresale base bm qm pt _ payer _ _ _ _ =>
    let k := PPresale base bm qm in [k; PBaseVault k; PQuoteVault k; pt; payer]
  | ICreateMerkle k creator _ version => [PMerkle k version; creator]
  | ICloseMerkle _ config _ rr => [config; rr]
  | IEscrowPermissionless k owner payer => [k; PEscrow k owner 0; payer]
  | IEscrowCreator k owner _ _ payer idx _ => [k; PEscrow k owner idx; payer]
  | IEscrowMerkle k owner _ payer _ idx _ => [k; PEscrow k owner idx; payer]
  | ICreateOperator oo creator => [POperator creator oo; creator]
  | IRevokeOperator oper creator => [oper; creator]
  | IDeposit k qv _ ek pt _ _ _ _ => [k; qv; ek; pt]
  | IWithdraw k qv _ ek ot _ _ _ _ => [k; qv; ek; ot]
  | IClaim k bv _ ek ot _ _ _ => [k; bv; ek; ot]
  | IWithdrawRemaining k qv _ ek ot _ _ _ => [k; qv; ek; ot]
  | IUnsold k bv bm ct _ _ => [k; bv; bm; ct]
  | ICloseEscrow k ek _ rr => [k; ek; rr]
  | ICreatorWithdraw k ot _ _ h => [k; ot] ++ take 1 (h_accounts h)
  | IRefresh _ ek => [ek]
  | ICreateServer k owner _ => [PServer k; owner]
  | ICloseServer _ sk _ rr => [sk; rr]
  | ICollectFee k qv _ rcv _ _ _ => [k; qv; rcv]
  | _ => []
  end.
Definition signed (c : call) (a : addr) : Prop :=
  exists m, m ∈ cl_accounts c /\ am_key m = a /\ am_signer m = true.
Definition writable (c : call) (a : addr) : Prop :=
  exists m, m ∈ cl_accounts c /\ am_key m = a /\ am_mut m = true.

(** Histories of calls and of everything else that happens on the chain ([Exec]) *)
Inductive happening := HCall (c : call) | HEnv (o : op).

Section WithCrypto.
Context `{Crypto} `{Ids}.

Definition happens (w : world) (h : happening) : world :=
  match h with
  | HCall c => match entry w c with Ok (w', _) => w' | Err _ => w end
  | HEnv o => if env_op o then exec w o else w
  end.

(** What a client sends for an operation: arguments (padding is zero), accounts in the order of the
    context. *)
Definition ix_of (o : op) : option ix :=
  match o with
  | IInitFixedArgs k _ _ dw q => Some (mkIx NInitFixedArgs (addr_bytes k, (dw, (q, zeros 64))))
  | ICloseFixedArgs _ _ => Some (mkIx NCloseFixedArgs tt)
  | IInitPresale _ _ _ _ _ _ _ _ a h =>
    Some (mkIx NInitPresale (((ia_params a, zeros 30), (ia_locked a, (zeros 32, map (fun r => (r, zeros 32)) (ia_regs a)))),
      h_slices h))
  | ICreateMerkle _ _ root version => Some (mkIx NCreateMerkle (root, version))
  | ICloseMerkle _ _ _ _ => Some (mkIx NCloseMerkle tt)
  | IEscrowPermissionless _ _ _ => Some (mkIx NEscrowPermissionless tt)
  | IEscrowCreator _ _ _ _ _ idx cap => Some (mkIx NEscrowCreator (idx, (cap, zeros 32)))
  | IEscrowMerkle _ _ _ _ proof idx cap => Some (mkIx NEscrowMerkle (proof, (idx, (cap, zeros 32))))
  | ICreateOperator _ _ => Some (mkIx NCreateOperator tt)
  | IRevokeOperator _ _ => Some (mkIx NRevokeOperator tt)
  | IDeposit _ _ _ _ _ _ _ n h => Some (mkIx NDeposit (n, h_slices h))
  | IWithdraw _ _ _ _ _ _ _ n h => Some (mkIx NWithdraw (n, h_slices h))
  | IClaim _ _ _ _ _ _ _ h => Some (mkIx NClaim (h_slices h))
  | IWithdrawRemaining _ _ _ _ _ _ _ h => Some (mkIx NWithdrawRemaining (h_slices h))
  | IUnsold _ _ _ _ _ h => Some (mkIx NUnsold (h_slices h))
  | ICloseEscrow _ _ _ _ => Some (mkIx NCloseEscrow tt)
  | ICreatorWithdraw _ _ _ _ h => Some (mkIx NCreatorWithdraw (h_slices h))
  | IRefresh _ _ => Some (mkIx NRefresh tt)
  | ICreateServer _ _ url => Some (mkIx NCreateServer url)
  | ICloseServer _ _ _ _ => Some (mkIx NCloseServer tt)
  | ICollectFee _ _ _ _ _ _ h => Some (mkIx NCollectFee (h_slices h))
  | _ => None
  end.
Definition accounts_of (o : op) : list addr :=
  match o with
  | IInitFixedArgs k owner payer _ _ => [PFixedArgs k; owner; payer; id_system]
  | ICloseFixedArgs args owner => [args; owner]
  | IInitPresale base bm qm pt creator payer bp qp _ _ =>
    let k := PPresale base bm qm in
    [bm; k; PAuth; qm; PBaseVault k; PQuoteVault k; pt; creator; base; payer; id_token bp; id_token qp; id_system]
  | ICreateMerkle k creator _ version => [k; PMerkle k version; creator; id_system]
  | ICloseMerkle k config creator rr => [k; config; rr; creator]
  | IEscrowPermissionless k owner payer => [k; PEscrow k owner 0; owner; payer; id_system]
  | IEscrowCreator k owner oper oo payer idx _ => [k; PEscrow k owner idx; owner; oper; oo; payer; id_system]
  | IEscrowMerkle k owner config payer _ idx _ => [k; PEscrow k owner idx; owner; config; payer; id_system]
  | ICreateOperator oo creator => [POperator creator oo; oo; creator; id_system]
  | IRevokeOperator oper creator => [oper; creator]
  | IDeposit k qv qm ek pt payer pr _ _ => [k; qv; qm; ek; pt; payer; id_token pr]
  | IWithdraw k qv qm ek ot owner pr _ _ => [k; qv; qm; PAuth; ek; ot; owner; id_token pr; id_memo]
  | IClaim k bv bm ek ot owner pr _ => [k; bv; bm; PAuth; ek; ot; owner; id_token pr; id_memo]
  | IWithdrawRemaining k qv qm ek ot owner pr _ => [k; qv; qm; PAuth; ek; ot; owner; id_token pr; id_memo]
  | IUnsold k bv bm ct pr _ => [k; bv; bm; PAuth; ct; id_token pr; id_memo]
  | ICloseEscrow k ek owner rr => [k; ek; owner; rr]
  | ICreatorWithdraw k ot owner pr _ => [k; PAuth; ot; owner; id_token pr; id_memo]
  | IRefresh k ek => [k; ek]
  | ICreateServer k owner _ => [k; PServer k; owner; id_system]
  | ICloseServer k sk owner rr => [k; sk; rr; owner]
  | ICollectFee k qv qm rcv owner pr _ => [k; PAuth; qv; qm; rcv; owner; id_token pr; id_memo]
  | _ => []
  end ++ [id_event_authority; id_program].
Definition hooks_of (o : op) : list addr * bool :=
  match o with
  | IInitPresale _ _ _ _ _ _ _ _ _ h | IDeposit _ _ _ _ _ _ _ _ h | IWithdraw _ _ _ _ _ _ _ _ h
  | IClaim _ _ _ _ _ _ _ h | IWithdrawRemaining _ _ _ _ _ _ _ h | IUnsold _ _ _ _ _ h
  | ICreatorWithdraw _ _ _ _ h | ICollectFee _ _ _ _ _ _ h => (h_accounts h, h_ok h)
  | _ => ([], true)
  end.
Definition call_of (o : op) : option call :=
  match ix_of o with
  | Some x => Some (mkCall
      (zip_with (fun a f => mkMeta a f.1 f.2) (accounts_of o) (ctx_fields (ix_name x))
       ++ map (fun a => mkMeta a false true) (hooks_of o).1)
      (encode_ix x) (hooks_of o).2)
  | None => None
  end.

(** Operations with an encoding: all arguments exist in their Rust types, and the one key among the
    arguments is the one its bytes stand for. *)
Definition sendable (o : op) : Prop :=
  match ix_of o with Some x => ix_valid x = true | None => False end /\
  match o with IInitFixedArgs k _ _ _ _ => key_of (addr_bytes k) = k | _ => True end.

(** * Calls and operations *)

Lemma has_one_same a : has_one a a = Ok tt.
Proof. unfold has_one, beq_addr. rewrite bool_decide_eq_true_2 by reflexivity. reflexivity. Qed.
Lemma token_program_same p : id_token SplToken <> id_token Token2022 -> token_program (id_token p) = Ok p.
Proof.
  intros Hne. unfold token_program, beq_addr. destruct p.
  - rewrite bool_decide_eq_true_2 by reflexivity. reflexivity.
  - rewrite bool_decide_eq_false_2 by congruence. rewrite bool_decide_eq_true_2 by reflexivity. reflexivity.
Qed.
Lemma take_ctx_zip fs : forall ks rest, List.length ks = List.length fs ->
  take_ctx fs (zip_with (fun a f => mkMeta a f.1 f.2) ks fs ++ rest) = Ok (ks, rest).
Proof.
  induction fs as [|[s m] fs IH]; intros ks rest Hl; destruct ks as [|k ks]; try discriminate Hl; [reflexivity|].
  cbn [zip_with app take_ctx am_signer am_mut am_key fst snd].
  replace (negb s || s) with true by (destruct s; reflexivity). replace (negb m || m) with true by (destruct m; reflexivity).
  cbn [require rbind]. rewrite IH by (injection Hl; auto). reflexivity.
Qed.
Lemma keys_of_hooks l : map am_key (map (fun a => mkMeta a false true) l) = l.
Proof. rewrite map_map. cbn. apply map_id. Qed.
Lemma strip_regs (l : list registry_args) (z : bytes) : map fst (map (fun r => (r, z)) l) = l.
Proof. rewrite map_map. cbn. apply map_id. Qed.

(** Every sendable operation is what its call means. *)
Theorem C74_calls_complete o c :
  id_token SplToken <> id_token Token2022 -> sendable o -> call_of o = Some c ->
  call_op c = Ok o /\ forall w, entry w c = step w o.
Proof.
  intros Hne [Hx Hk] Hc. enough (Ho : call_op c = Ok o).
  { split; [exact Ho|]. intros w. unfold entry. rewrite Ho. reflexivity. }
  unfold call_of in Hc. destruct (ix_of o) as [x|] eqn:He; [|contradiction]. injection Hc as <-.
  unfold call_op. cbn [cl_data cl_accounts cl_hook_ok].
  rewrite <- (app_nil_r (encode_ix x)), C73_round_trip by exact Hx.
  rewrite take_ctx_zip.
  2: { destruct o; try discriminate He; cbn in He; injection He as <-; reflexivity. }
  cbn [rbind].
  destruct o; try discriminate He; cbn [ix_of] in He; injection He as <-; cbn [ix_name ix_args hooks_of fst snd];
    cbn [build accounts_of app fst snd]; unfold own_accounts;
    rewrite ?Hk, ?has_one_same; cbn [rbind]; rewrite ?(token_program_same _ Hne); cbn [rbind];
    rewrite ?has_one_same; cbn [rbind]; rewrite ?keys_of_hooks, ?strip_regs; try reflexivity.
  all: try (destruct a; destruct h; reflexivity).
  all: try (destruct h; reflexivity).
  all: destruct h as [[|] ? ?]; reflexivity.
Qed.

Definition meets (m : meta) (f : bool * bool) : Prop :=
  (f.1 = true -> am_signer m = true) /\ (f.2 = true -> am_mut m = true).
Lemma take_ctx_inv fs : forall ms ks rest, take_ctx fs ms = Ok (ks, rest) ->
  exists ms1, ms = ms1 ++ rest /\ ks = map am_key ms1 /\ Forall2 meets ms1 fs.
Proof.
  induction fs as [|[s m] fs IH]; intros ms ks rest Ht; cbn [take_ctx] in Ht.
  - injection Ht as <- <-. exists []. repeat split. constructor.
  - destruct ms as [|a ms]; [discriminate Ht|].
    destruct (negb s || am_signer a) eqn:Hs; [|discriminate Ht]. destruct (negb m || am_mut a) eqn:Hm; [|discriminate Ht].
    cbn [require rbind] in Ht. destruct (take_ctx fs ms) as [[ks1 r1]|] eqn:E; [|discriminate Ht].
    cbn [rbind] in Ht. injection Ht as <- <-. destruct (IH _ _ _ E) as (ms1 & -> & -> & Hf).
    exists (a :: ms1). repeat split. constructor; [|exact Hf]. split; cbn; intros ->; [exact Hs|exact Hm].
Qed.

Lemma has_one_eq a b u : has_one a b = Ok u -> a = b.
Proof. unfold has_one, beq_addr. intros Hq. destruct (bool_decide_reflect (a = b)); [assumption|discriminate Hq]. Qed.

Ltac unbind Hb :=
  repeat match type of Hb with
  | rbind (rbind ?r _) _ = Ok _ => let E := fresh "E" in destruct r eqn:E; cbn [rbind] in Hb; [|discriminate Hb]
  | rbind ?r _ = Ok _ => let E := fresh "E" in destruct r eqn:E; cbn [rbind] in Hb; [|discriminate Hb]
  end.

(** Every call with a meaning carries the signatures and writable accounts of its operation, its
    arguments are in range, and it is an instruction of the program. *)
Theorem C74_calls_sound c o : call_op c = Ok o ->
  env_op o = false /\ Forall (signed c) (signers_of o) /\ Forall (writable c) (writes_of o).
Proof.
  unfold call_op. destruct (decode_ix (cl_data c)) as [[[n v] r]|]; [|discriminate]. cbn [ix_name ix_args].
  intros Hb. destruct (take_ctx (ctx_fields n) (cl_accounts c)) as [[ks rest]|] eqn:Ht; [|discriminate Hb].
  cbn [rbind] in Hb. apply take_ctx_inv in Ht as (ms & Hms & -> & Hf).
  assert (Hsig : forall m, m ∈ ms -> am_signer m = true -> signed c (am_key m)).
  { intros m Hm Hs. exists m. rewrite Hms. split; [apply elem_of_app; left; exact Hm|]. auto. }
  assert (Hwr : forall m, m ∈ ms ++ rest -> am_mut m = true -> writable c (am_key m)).
  { intros m Hm Hs. exists m. rewrite Hms. auto. }
  clear Hms. unfold ctx_fields, event_cpi in Hf.
  destruct n; cbn [app] in Hf;
    repeat (apply Forall2_cons_inv_r in Hf as (? & ? & [? ?] & Hf & ->)); apply Forall2_nil_inv_r in Hf as ->;
    cbn [ro rw sg sgw fst snd] in *; cbn [payload] in v; cbn [map] in Hb.
  all: repeat match goal with v : (_ * _)%type |- _ => destruct v | v : wire_init_args |- _ => destruct v end.
  all: cbn [build] in Hb; unfold own_accounts in Hb; unbind Hb; injection Hb as <-.
  all: repeat match goal with E : has_one _ _ = Ok _ |- _ => apply has_one_eq in E end.
  all: split; [reflexivity|]; split; cbn [signers_of writes_of h_accounts app].
  all: unfold DEFAULT_PERMISSIONLESS_REGISTRY_INDEX in *.
  all: repeat match goal with E : am_key _ = _ |- _ => rewrite <- E end.
  all: repeat (apply List.Forall_cons; [first [apply Hsig|apply Hwr]; [apply elem_of_list_In; cbn [app In]; auto 12|auto]|]).
  all: try apply List.Forall_nil.
  (* the vault of [creator_withdraw] *)
  destruct rest as [|m rest]; cbn [map take]; [apply List.Forall_nil|].
  apply List.Forall_cons; [|apply List.Forall_nil]. apply Hwr.
  - apply elem_of_list_In, in_or_app. right. left. reflexivity.
  - match goal with E : require (am_mut m) _ = Ok _ |- _ => destruct (am_mut m); [reflexivity|discriminate E] end.
Qed.

(** The accounts of a call with a meaning are the ones a client sends for the operation, in the same
    order: created accounts sit at their own derived addresses, and the presale authority, the token
    programs, the system and memo programs, the event authority and the program itself cannot be
    replaced.  The accounts after them are the remaining accounts of the operation, if it looks at
    them, and the transfer hook's verdict is the same. *)
Definition reads_remaining (o : op) : bool :=
  match o with
  | IInitPresale _ _ _ _ _ _ _ _ _ _ | IDeposit _ _ _ _ _ _ _ _ _ | IWithdraw _ _ _ _ _ _ _ _ _
  | IClaim _ _ _ _ _ _ _ _ | IWithdrawRemaining _ _ _ _ _ _ _ _ | IUnsold _ _ _ _ _ _
  | ICreatorWithdraw _ _ _ _ _ | ICollectFee _ _ _ _ _ _ _ => true
  | _ => false
  end.
Lemma token_program_eq a p : token_program a = Ok p -> a = id_token p.
Proof.
  unfold token_program, beq_addr. destruct (bool_decide_reflect (a = id_token SplToken)) as [->|_].
  - intros E. injection E as <-. reflexivity.
  - destruct (bool_decide_reflect (a = id_token Token2022)) as [->|_]; intros E; [|discriminate E].
    injection E as <-. reflexivity.
Qed.
Theorem C74_accounts c o : call_op c = Ok o ->
  exists rest, map am_key (cl_accounts c) = accounts_of o ++ rest /\
    (reads_remaining o = true -> hooks_of o = (rest, cl_hook_ok c)) /\
    option_map ix_name (ix_of o) = option_map (fun x => ix_name x.1) (decode_ix (cl_data c)).
Proof.
  unfold call_op. destruct (decode_ix (cl_data c)) as [[[n v] r]|]; [|discriminate]. cbn [ix_name ix_args].
  intros Hb. destruct (take_ctx (ctx_fields n) (cl_accounts c)) as [[ks rest]|] eqn:Ht; [|discriminate Hb].
  cbn [rbind] in Hb. apply take_ctx_inv in Ht as (ms & -> & -> & Hf). rewrite map_app.
  exists (map am_key rest). unfold ctx_fields, event_cpi in Hf.
  destruct n; cbn [app] in Hf;
    repeat (apply Forall2_cons_inv_r in Hf as (? & ? & _ & Hf & ->)); apply Forall2_nil_inv_r in Hf as ->;
    cbn [payload] in v; cbn [map] in Hb |- *.
  all: repeat match goal with v : (_ * _)%type |- _ => destruct v | v : wire_init_args |- _ => destruct v end.
  all: cbn [build] in Hb; unfold own_accounts in Hb; unbind Hb; injection Hb as <-.
  all: repeat match goal with E : has_one _ _ = Ok _ |- _ => apply has_one_eq in E end.
  all: repeat match goal with E : token_program _ = Ok _ |- _ => apply token_program_eq in E end.
  all: split; [cbn [accounts_of app]|split; [intros Hr; try discriminate Hr; reflexivity|reflexivity]].
  all: unfold DEFAULT_PERMISSIONLESS_REGISTRY_INDEX in *.
  all: repeat match goal with E : am_key ?x = _ |- _ => is_var x; rewrite E in *; clear E end.
  all: reflexivity.
Qed.

(** Calls reach no other states than operations, so all theorems about reachable states hold for
    them... *)
Theorem C74_calls_reach l : reachable (fold_left happens l genesis).
Proof.
  assert (Hr : forall w, reachable w -> reachable (fold_left happens l w)); [|apply Hr; exists []; reflexivity].
  induction l as [|h l IH]; intros w Hw; [exact Hw|]. cbn [fold_left]. apply IH. destruct h as [c|o]; cbn [happens].
  - unfold entry. destruct (call_op c) as [o|]; cbn [rbind]; [|exact Hw].
    change (reachable (exec w o)). apply (reachable_run _ [o]). exact Hw.
  - destruct (env_op o); [|exact Hw]. apply (reachable_run _ [o]). exact Hw.
Qed.
(** ...and histories of sendable operations are histories of calls. *)
Definition happening_of (o : op) : happening :=
  match call_of o with Some c => HCall c | None => HEnv o end.
Lemma call_of_env o : env_op o = true <-> call_of o = None.
Proof. destruct o; cbn; split; intros E; try reflexivity; discriminate E. Qed.
Theorem C74_calls_cover w l :
  id_token SplToken <> id_token Token2022 ->
  (forall o, o ∈ l -> env_op o = true \/ sendable o) ->
  fold_left happens (map happening_of l) w = run w l.
Proof.
  intros Hne. revert w. induction l as [|o l IH]; intros w Hl; [reflexivity|].
  cbn [map fold_left]. change (run w (o :: l)) with (run (exec w o) l). rewrite <- IH by (intros; apply Hl; right; assumption).
  f_equal. unfold happening_of. destruct (call_of o) as [c|] eqn:Hc.
  - destruct (Hl o) as [He|Hs]; [left|apply call_of_env in He; congruence|].
    destruct (C74_calls_complete _ _ Hne Hs Hc) as [_ He]. cbn [happens]. rewrite He. reflexivity.
  - apply call_of_env in Hc. cbn [happens]. rewrite Hc. reflexivity.
Qed.

(** * Arguments and the decoding checks of the handlers *)

(** The ranges the handlers of [Instr] test at their start *)
Definition args_in_range (o : op) : bool :=
  match o with
  | IInitFixedArgs _ _ _ dw q => in_u8 dw && in_u128 q
  | IInitPresale _ _ _ _ _ _ _ _ a h => init_args_decode a && henv_decodes h
  | ICreateMerkle _ _ root version => is_hash root && in_u64 version
  | IEscrowCreator _ _ _ _ _ idx cap => in_u8 idx && in_u64 cap
  | IEscrowMerkle _ _ _ _ proof idx cap => forallb is_hash proof && in_u8 idx && in_u64 cap
  | IDeposit _ _ _ _ _ _ _ n h | IWithdraw _ _ _ _ _ _ _ n h => in_u64 n && henv_decodes h
  | IClaim _ _ _ _ _ _ _ h | IWithdrawRemaining _ _ _ _ _ _ _ h | IUnsold _ _ _ _ _ h
  | ICreatorWithdraw _ _ _ _ h | ICollectFee _ _ _ _ _ _ h => henv_decodes h
  | _ => true
  end.

Definition soft {A} (r : res A) : Prop := r <> Err DecodeError.
Lemma soft_bind {A B} (r : res A) (k : A -> res B) : soft r -> (forall a, soft (k a)) -> soft (rbind r k).
Proof. intros Hr Hk. destruct r as [a|e]; [apply Hk|]. cbn. intros Hx. apply Hr. congruence. Qed.
Lemma soft_Ok {A} (a : A) : soft (Ok a).
Proof. discriminate. Qed.
Lemma soft_require b e : e <> DecodeError -> soft (require b e).
Proof. intros He. unfold require, soft. destruct b; congruence. Qed.
Lemma soft_ok_or {A} (o : option A) e : e <> DecodeError -> soft (ok_or o e).
Proof. intros He. unfold ok_or, soft. destruct o; congruence. Qed.

Ltac head_of t := lazymatch t with ?f _ => head_of f | ?f => f end.
Ltac soft1 :=
  lazymatch goal with
  | |- forall _, _ => intro
  | |- soft (rbind _ _) => apply soft_bind; [|intro]
  | |- soft (Ok _) => apply soft_Ok
  | H : soft (Err ?e) |- soft (Err ?e) => intros Hx; apply H; congruence
  | |- soft (Err _) => discriminate
  | |- soft (require _ _) => apply soft_require; discriminate
  | |- soft (ok_or _ _) => apply soft_ok_or; discriminate
  | |- soft (match ?x with _ => _ end) =>
    lazymatch type of x with
    | res _ => let E := fresh in assert (E : soft x); [|destruct x]
    | _ => destruct x
    end
  | |- soft ?t => let h := head_of t in unfold h
  end.
Create HintDb soft.
Ltac softly := repeat (first [solve [eauto 2 with soft] | soft1]).

Lemma soft_sum l : forall a, soft (sum_supplies a l).
Proof. induction l as [|x l IH]; intros a; cbn [sum_supplies]; softly. Qed.
#[local] Hint Resolve soft_sum : soft.
Lemma soft_caps m l : soft (enforce_dynamic_caps m l).
Proof. induction l as [|x l IH]; cbn [enforce_dynamic_caps]; softly. Qed.
Lemma soft_fixed_regs q m b l : soft (fixed_check_registries q m b l).
Proof. induction l as [|x l IH]; cbn [fixed_check_registries]; softly. Qed.
Lemma soft_parse l v : forall r acc, soft (parse_loop l v r acc).
Proof. induction l as [|x l IH]; intros r acc; cbn [parse_loop]; softly. Qed.
#[local] Hint Resolve soft_caps soft_fixed_regs soft_parse : soft.

Lemma soft_fee l r t : forall a, soft (collected_fee_loop l r t a).
Proof. induction l as [|x l IH]; intros a; cbn [collected_fee_loop]; softly. Qed.
Lemma soft_dsold l : forall a, soft (dynamic_sold_loop l a).
Proof. induction l as [|x l IH]; intros a; cbn [dynamic_sold_loop]; softly. Qed.
Lemma soft_fsold q l : forall a, soft (fixed_sold_loop q l a).
Proof. induction l as [|x l IH]; intros a; cbn [fixed_sold_loop]; softly. Qed.
Lemma soft_vregs p l : forall a, soft (validate_registries_loop p l a).
Proof. induction l as [|x l IH]; intros a; cbn [validate_registries_loop]; softly. Qed.
#[local] Hint Resolve soft_fee soft_dsold soft_fsold soft_vregs : soft.

Lemma soft_guard {A} b (k : unit -> res A) : b = true -> soft (k tt) -> soft (rbind (require b DecodeError) k).
Proof. intros -> Hk. exact Hk. Qed.
Lemma soft_step w o : args_in_range o = true -> soft (step w o).
Proof.
  intros Ha. destruct o; cbn [args_in_range] in Ha; cbn [step];
    match goal with |- soft ?t => let h := head_of t in unfold h end;
    try (apply soft_guard; [exact Ha|]); clear Ha.
  all: softly.
Qed.

Lemma valid_u8 z : valid c_u8 z = in_u8 z.
Proof. unfold c_u8, c_int, in_u8, U8MAX. cbn [valid]. change (2 ^ _) with 256. f_equal. lia. Qed.
Lemma valid_u16 z : valid c_u16 z = in_u16 z.
Proof. unfold c_u16, c_int, in_u16, U16MAX. cbn [valid]. change (2 ^ _) with 65536. f_equal. lia. Qed.
Lemma valid_u64 z : valid c_u64 z = in_u64 z.
Proof. unfold c_u64, c_int, in_u64, U64MAX. cbn [valid]. change (2 ^ _) with 18446744073709551616. f_equal. lia. Qed.
Lemma valid_u128 z : valid c_u128 z = in_u128 z.
Proof.
  unfold c_u128, c_int, in_u128, U128MAX. cbn [valid]. change (2 ^ _) with 340282366920938463463374607431768211456. f_equal. lia.
Qed.

Lemma valid_array32 b : valid (c_array 32) b = is_hash b.
Proof. unfold c_array, is_hash. cbn [valid]. f_equal. apply Bool.eq_iff_eq_true. rewrite Nat.eqb_eq, Z.eqb_eq. lia. Qed.
Lemma valid_slices l : valid c_slices l = (Z.of_nat (List.length l) <? 2 ^ 32) && forallb (fun s => in_u8 (sl_len s)) l.
Proof.
  unfold c_slices, c_vec. cbn [valid]. f_equal. induction l as [|s l IH]; cbn [forallb]; [reflexivity|].
  f_equal; [|exact IH]. cbn [valid c_slice c_iso c_pair c_accounts_type fst snd]. rewrite valid_u8. reflexivity.
Qed.
Lemma valid_proof l : valid (c_vec (c_array 32)) l = (Z.of_nat (List.length l) <? 2 ^ 32) && forallb is_hash l.
Proof.
  unfold c_vec. cbn [valid]. f_equal. induction l as [|s l IH]; cbn [forallb]; [reflexivity|].
  f_equal; [apply valid_array32|exact IH].
Qed.
Lemma valid_presale_args a pad : valid c_presale_args (a, pad) = presale_args_decode a && valid (c_array 30) pad.
Proof.
  unfold c_presale_args, presale_args_decode. cbn [valid c_iso c_pair fst snd].
  rewrite !valid_u64, !valid_u8, !andb_assoc. reflexivity.
Qed.
Lemma valid_registry_args r pad : valid c_registry_args (r, pad) = registry_args_decode r && valid (c_array 32) pad.
Proof.
  unfold c_registry_args, registry_args_decode. cbn [valid c_iso c_pair fst snd].
  rewrite !valid_u64, !valid_u16, !andb_assoc. reflexivity.
Qed.
Lemma valid_locked_args l : valid c_locked_args l = locked_args_decode l && (List.length (lv_padding l) =? 24)%nat.
Proof.
  unfold c_locked_args, locked_args_decode, c_array. cbn [valid c_iso c_pair fst snd].
  rewrite !valid_u64, !valid_u16, !andb_assoc.
  rewrite <- (andb_assoc _ (forallb _ _)), (andb_comm (forallb _ _)), !andb_assoc. reflexivity.
Qed.
Lemma valid_regs l : forallb (valid c_registry_args) l = true -> forallb registry_args_decode (map fst l) = true.
Proof.
  induction l as [|[r pad] l IH]; cbn [forallb map fst]; [reflexivity|]. rewrite valid_registry_args, !andb_true_iff. intuition.
Qed.

(** The arguments of a call exist in their Rust types... *)
Lemma call_in_range c o : forallb in_u8 (cl_data c) = true -> call_op c = Ok o -> args_in_range o = true.
Proof.
  unfold call_op. intros Hd Hb. destruct (decode_ix (cl_data c)) as [[[n v] r]|] eqn:Hx; [|discriminate Hb].
  apply (C73_canonical _ _ _ Hd) in Hx as [Hv _]. unfold ix_valid in Hv. cbn [ix_name ix_args] in Hb, Hv.
  destruct (take_ctx (ctx_fields n) (cl_accounts c)) as [[ks rest]|]; [|discriminate Hb]. cbn [rbind] in Hb.
  clear Hd. destruct n; cbn [payload] in v; cbn [codec_of] in Hv.
  all: repeat match goal with v : (_ * _)%type |- _ => destruct v | v : wire_init_args |- _ => destruct v end.
  all: cbn [build] in Hb; unfold own_accounts in Hb.
  all: repeat match type of Hb with match ?x with _ => _ end = _ => destruct x; try discriminate Hb end.
  all: unbind Hb; injection Hb as <-; cbn [args_in_range].
  all: try reflexivity.
  all: unfold c_init_args in Hv; cbn [valid c_pair fst snd] in Hv.
  all: rewrite ?valid_array32, ?valid_u8, ?valid_u64, ?valid_u128, ?valid_slices, ?valid_proof, ?andb_true_iff in Hv.
  all: unfold henv_decodes; cbn [h_slices]; rewrite ?andb_true_iff; intuition.
  rewrite valid_presale_args, andb_true_iff in *. rewrite valid_locked_args, andb_true_iff in *.
  cbn [valid c_vec] in *. rewrite andb_true_iff in *. 
  unfold init_args_decode. cbn [ia_params ia_locked ia_regs fst]. rewrite !andb_true_iff. intuition. apply valid_regs. assumption.
Qed.
(** ...so the handlers' range checks are no restriction: a call that decodes is not rejected for its
    arguments' ranges, whatever the state. *)
Theorem C74_decodes c : forallb in_u8 (cl_data c) = true ->
  (decode_ix (cl_data c) = None -> forall w, entry w c = Err DecodeError) /\
  (forall o, call_op c = Ok o -> forall w, entry w c <> Err DecodeError).
Proof.
  intros Hd. split.
  - intros Hn w. unfold entry, call_op. rewrite Hn. reflexivity.
  - intros o Ho w. unfold entry. rewrite Ho. cbn [rbind]. apply soft_step. exact (call_in_range _ _ Hd Ho).
Qed.

(** The sizes Borsh can express, which the model does not bound *)
Definition wire_fits (o : op) : Prop :=
  let small {A} (l : list A) := Z.of_nat (List.length l) < 2 ^ 32 in
  match o with
  | IInitFixedArgs k _ _ _ _ => is_hash (addr_bytes k) = true /\ key_of (addr_bytes k) = k
  | IInitPresale _ _ _ _ _ _ _ _ a h =>
    List.length (lv_padding (ia_locked a)) = 24%nat /\ small (ia_regs a) /\ small (h_slices h)
  | IEscrowMerkle _ _ _ _ proof _ _ => small proof
  | IDeposit _ _ _ _ _ _ _ _ h | IWithdraw _ _ _ _ _ _ _ _ h
  | IClaim _ _ _ _ _ _ _ h | IWithdrawRemaining _ _ _ _ _ _ _ h | IUnsold _ _ _ _ _ h
  | ICreatorWithdraw _ _ _ _ h | ICollectFee _ _ _ _ _ _ h => small (h_slices h)
  | ICreateServer _ _ url => small url /\ forallb in_u8 url = true /\ utf8 url = true
  | _ => True
  end.
Lemma regs_valid l : forallb registry_args_decode l = true ->
  forallb (valid c_registry_args) (map (fun r => (r, zeros 32)) l) = true.
Proof.
  induction l as [|r l IH]; cbn [forallb map]; [reflexivity|]. rewrite valid_registry_args, !andb_true_iff. intuition.
Qed.
Lemma step_in_range w o r : step w o = Ok r -> args_in_range o = true.
Proof.
  intros Hs. destruct o; try reflexivity; cbn [step] in Hs; cbn [args_in_range];
    match type of Hs with ?t = _ => let h := head_of t in unfold h in Hs end;
    match type of Hs with rbind (require ?b _) _ = _ => destruct b; [reflexivity|discriminate Hs] end.
Qed.
(** Whatever the machine accepts and Borsh can express can be sent. *)
Theorem C74_accepted_sendable w o r : step w o = Ok r -> env_op o = false -> wire_fits o -> sendable o.
Proof.
  intros Hs He Hf. apply step_in_range in Hs. unfold sendable.
  destruct o; try discriminate He; cbn [ix_of]; unfold ix_valid; cbn [ix_name ix_args codec_of];
    cbn [args_in_range] in Hs; cbn [wire_fits] in Hf; (split; [|tauto || exact I]); clear He.
  all: unfold c_init_args; cbn [valid c_pair fst snd].
  all: rewrite ?valid_array32, ?valid_u8, ?valid_u64, ?valid_u128, ?valid_slices, ?valid_proof, ?andb_true_iff in *.
  all: unfold henv_decodes in *; cbn [h_slices] in *; rewrite ?andb_true_iff, ?Z.ltb_lt.
  all: try solve [intuition]. 
  - rewrite valid_presale_args, valid_locked_args, andb_true_iff. cbn [valid c_vec].
    unfold init_args_decode in Hs. rewrite !andb_true_iff in *. rewrite Nat.eqb_eq, Z.ltb_lt, map_length.
    destruct Hf as (? & ? & ?). destruct Hs as [[[? ?] ?] ?]. repeat split; auto using regs_valid.
  - cbn [valid c_string]. rewrite !andb_true_iff, Z.ltb_lt. tauto.
Qed.

(** * C75: the accounts an instruction changes *)

(** The account at [a] is as before.  Token-2022 keeps withheld fees in the receiving accounts; the
    model collects them in the mint, so of a mint only the supply counts. *)
Definition untouched (w w' : world) (a : addr) : Prop :=
  w_presales w' !! a = w_presales w !! a /\ w_escrows w' !! a = w_escrows w !! a /\
  w_tokens w' !! a = w_tokens w !! a /\ m_supply <$> w_mints w' !! a = m_supply <$> w_mints w !! a /\
  w_fixed w' !! a = w_fixed w !! a /\ w_merkles w' !! a = w_merkles w !! a /\
  w_opers w' !! a = w_opers w !! a /\ w_servers w' !! a = w_servers w !! a.

Lemma untouched_refl w a : untouched w w a.
Proof. repeat split. Qed.
Lemma untouched_trans w1 w2 w3 a : untouched w1 w2 a -> untouched w2 w3 a -> untouched w1 w3 a.
Proof. unfold untouched. intros (?&?&?&?&?&?&?&?) (?&?&?&?&?&?&?&?). repeat split; etransitivity; eassumption. Qed.
Lemma untouched_presale w k p a : a <> k -> untouched w (upd_presale k p w) a.
Proof. intros Hn. repeat split. cbn. apply lookup_insert_ne. auto. Qed.
Lemma untouched_escrow w k e a : a <> k -> untouched w (upd_escrow k e w) a.
Proof. intros Hn. repeat split. cbn. apply lookup_insert_ne. auto. Qed.
Lemma untouched_token w k t a : a <> k -> untouched w (upd_token k t w) a.
Proof. intros Hn. repeat split. cbn. apply lookup_insert_ne. auto. Qed.
Lemma untouched_mint w k m a : a <> k \/ m_supply <$> w_mints w !! k = Some (m_supply m) -> untouched w (upd_mint k m w) a.
Proof.
  intros Hn. repeat split. cbn. destruct (decide (a = k)) as [->|Ha].
  - rewrite lookup_insert. destruct Hn as [Hn| ->]; [congruence|reflexivity].
  - rewrite lookup_insert_ne by auto. reflexivity.
Qed.
Lemma untouched_transfer w pr src mk dst auth n ok w' l a :
  tok_transfer w pr src mk dst auth n ok = Ok (w', l) -> a <> src -> a <> dst -> untouched w w' a.
Proof.
  intros Ht Hs Hd. apply tok_transfer_inv in Ht as (m & s & d & dl & Hm & _ & _ & _ & _ & _ & _ & _ & _ & _ & Hc).
  destruct Hc as [(_ & -> & _)|(_ & _ & _ & -> & _)]; [apply untouched_refl|].
  eapply untouched_trans; [apply untouched_token; exact Hs|]. eapply untouched_trans; [apply untouched_token; exact Hd|].
  apply untouched_mint. right. cbn. rewrite Hm. reflexivity.
Qed.
Lemma untouched_paid w pr src mk dst n ok w' l a :
  paid w pr src mk dst n ok w' l -> a <> src -> a <> dst -> untouched w w' a.
Proof. intros [[_ Ht]|(_ & -> & _)] Hs Hd; [eapply untouched_transfer; eassumption|apply untouched_refl]. Qed.
Lemma untouched_burn w pr src mk auth n w' l a :
  tok_burn w pr src mk auth n = Ok (w', l) -> a <> src -> a <> mk -> untouched w w' a.
Proof.
  intros Ht Hs Hm. apply tok_burn_inv in Ht as (m & s & dl & _ & _ & _ & _ & _ & _ & _ & -> & _).
  eapply untouched_trans; [apply untouched_token; exact Hs|]. apply untouched_mint. auto.
Qed.
Lemma untouched_create w p k owner idx cap w' l a :
  finish_create_escrow w p k owner idx cap = Ok (w', l) -> a <> k -> a <> PEscrow k owner idx -> untouched w w' a.
Proof.
  intros Hf Hk He. apply finish_create_inv in Hf as (r & _ & _ & _ & _ & _ & _ & _ & -> & _).
  eapply untouched_trans; [apply untouched_presale; exact Hk|]. apply untouched_escrow. exact He.
Qed.
Lemma creator_withdraw_vault w k ot owner pr h w' l p :
  creator_withdraw w k ot owner pr h = Ok (w', l) -> w_presales w !! k = Some p ->
  exists v rest, h_accounts h = v :: rest /\
    (get_progress p (w_now w) = Completed -> v = p_qvault p) /\ (get_progress p (w_now w) = Failed -> v = p_bvault p).
Proof.
  unfold creator_withdraw, get_presale, take_vault_and_mint. intros Hs Hp.
  bq Hs Hd. bclock Hs. rewrite Hp in Hs. cbn [ok_or rbind] in Hs. bone Hs Ho. bsig Hs Hsg. bq Hs Hg. bq Hs Hcw. bi Hs x Hx. clear Hs.
  destruct (get_progress p (w_now w)) eqn:Hpg; try discriminate Hx; destruct (h_accounts h) as [|v [|m1 rr]]; try discriminate Hx.
  all: bi Hx y Htk; bi Htk tv Htv; bi Htk mi Hmi; bq Htk Hv; clean_bool; eauto 6 with congruence.
  all: exists v, (m1 :: rr); split; [reflexivity|]; split; congruence.
Qed.

Lemma step_untouched w o w' l a :
  env_op o = false -> step w o = Ok (w', l) -> a ∉ writes_of o -> untouched w w' a.
Proof.
  intros He Hs Ha. destruct o; try discriminate He; cbn [step] in Hs; cbn [writes_of] in Ha;
    rewrite ?not_elem_of_app, ?not_elem_of_cons in Ha.
  - apply init_fixed_inv in Hs as (_ & _ & _ & _ & -> & _). repeat split. cbn. apply lookup_insert_ne. intuition congruence.
  - apply close_fixed_inv in Hs as (x & _ & _ & _ & -> & _). repeat split. cbn. apply lookup_delete_ne. intuition congruence.
  - apply init_inv in Hs as (bm & qm & p & rest & hooks & rest' & pool & am & w2 & fx & Hs). cbv zeta in Hs.
    destruct Hs as (_ & _ & _ & _ & _ & _ & _ & _ & _ & _ & _ & _ & _ & _ & _ & _ & _ & _ & _ & Ht & -> & _).
    eapply untouched_trans; [|apply untouched_presale; tauto].
    eapply untouched_trans; [|eapply untouched_transfer; [exact Ht|tauto|tauto]].
    eapply untouched_trans; apply untouched_token; tauto.
  - apply create_merkle_inv in Hs as (p & _ & _ & _ & _ & _ & _ & _ & _ & -> & _). repeat split. cbn. apply lookup_insert_ne. intuition congruence.
  - apply close_merkle_inv in Hs as (p & x & _ & _ & _ & _ & _ & _ & _ & -> & _). repeat split. cbn. apply lookup_delete_ne. intuition congruence.
  - apply create_permissionless_inv in Hs as (p & _ & _ & _ & Hf). eapply untouched_create; [exact Hf|tauto|tauto].
  - apply create_authority_inv in Hs as (p & x & _ & _ & _ & _ & _ & _ & _ & _ & _ & Hf). eapply untouched_create; [exact Hf|tauto|tauto].
  - apply create_merkle_escrow_inv in Hs as (p & x & _ & _ & _ & _ & _ & _ & _ & _ & _ & Hf). eapply untouched_create; [exact Hf|tauto|tauto].
  - apply create_operator_inv in Hs as (_ & _ & -> & _). repeat split. cbn. apply lookup_insert_ne. intuition congruence.
  - apply revoke_operator_inv in Hs as (x & _ & _ & _ & -> & _). repeat split. cbn. apply lookup_delete_ne. intuition congruence.
  - apply deposit_inv in Hs. decompose [ex and] Hs. subst w'.
    eapply untouched_trans; [|apply untouched_escrow; tauto]. eapply untouched_trans; [|apply untouched_presale; tauto].
    eapply untouched_transfer; [eassumption|tauto|tauto].
  - apply withdraw_inv in Hs. decompose [ex and] Hs. subst w'.
    eapply untouched_trans; [|apply untouched_escrow; tauto]. eapply untouched_trans; [|apply untouched_presale; tauto].
    eapply untouched_transfer; [eassumption|tauto|tauto].
  - apply claim_inv in Hs. destruct Hs as (p & e & m & hh & e1 & net & p2 & e2 & w1 & fx & Hs).
    assert (Hx : untouched w w1 a).
    { destruct Hs as (_ & _ & _ & _ & _ & _ & _ & _ & _ & _ & _ & _ & Hs & _).
      destruct Hs as [(_ & r & _ & _ & _ & _ & Ht)|(_ & _ & _ & -> & _)]; [|apply untouched_refl].
      eapply untouched_transfer; [eassumption|tauto|tauto]. }
    assert (w' = upd_escrow escrow e2 (upd_presale presale p2 w1)) as -> by tauto.
    eapply untouched_trans; [|apply untouched_escrow; tauto]. eapply untouched_trans; [exact Hx|apply untouched_presale; tauto].
  - apply remaining_quote_inv in Hs. decompose [ex and] Hs. subst w'.
    eapply untouched_trans; [|apply untouched_escrow; tauto]. eapply untouched_trans; [|apply untouched_presale; tauto].
    eapply untouched_paid; [eassumption|tauto|tauto].
  - apply unsold_inv in Hs. destruct Hs as (p & m & t & hh & am & w1 & fx & Hs).
    assert (w' = upd_presale presale (set_p_unsold_done 1 p) w1) as -> by tauto.
    eapply untouched_trans; [|apply untouched_presale; tauto].
    destruct Hs as (_ & _ & _ & _ & _ & _ & _ & _ & _ & _ & _ & _ & _ & _ & [ [_ Ht]|[_ Ht]] & _).
    + eapply untouched_burn; [exact Ht|tauto|tauto].
    + eapply untouched_transfer; [exact Ht|tauto|tauto].
  - apply close_escrow_inv in Hs. decompose [ex and] Hs. subst w'.
    eapply untouched_trans; [apply (untouched_presale _ presale); tauto|]. repeat split. cbn. apply lookup_delete_ne. intuition congruence.
  - pose proof Hs as Hv. apply creator_withdraw_inv in Hs as (p & m & net & w1 & fx & _ & Hp & _ & _ & _ & Hs & ->).
    destruct (creator_withdraw_vault _ _ _ _ _ _ _ _ _ Hv Hp) as (v & rest & Hh & Hq & Hb). rewrite Hh in Ha.
    cbn [take app] in Ha. rewrite ?not_elem_of_cons in Ha.
    eapply untouched_trans; [|apply untouched_presale; tauto].
    destruct Hs as [(Hg & _ & Ht & _)|(Hg & _ & Ht & _)]; eapply untouched_transfer; try exact Ht; try tauto.
    + rewrite <- (Hq Hg). tauto.
    + rewrite <- (Hb Hg). tauto.
  - apply refresh_inv in Hs as (p & e & e1 & _ & _ & _ & _ & _ & -> & _). apply untouched_escrow. tauto.
  - apply create_server_inv in Hs as (p & _ & _ & _ & _ & _ & _ & -> & _). repeat split. cbn. apply lookup_insert_ne. intuition congruence.
  - apply close_server_inv in Hs as (p & x & _ & _ & _ & _ & _ & _ & -> & _). repeat split. cbn. apply lookup_delete_ne. intuition congruence.
  - apply collect_fee_inv in Hs. decompose [ex and] Hs. subst w'.
    eapply untouched_trans; [|apply untouched_presale; tauto]. eapply untouched_paid; [eassumption|tauto|tauto].
Qed.

(** An instruction changes only accounts that were passed to it as writable... *)
Theorem C75_writable w c w' l a : entry w c = Ok (w', l) -> ~ writable c a -> untouched w w' a.
Proof.
  unfold entry. intros He Ha. destruct (call_op c) as [o|] eqn:Ho; [|discriminate He]. cbn [rbind] in He.
  destruct (C74_calls_sound _ _ Ho) as (Hn & _ & Hw). apply (step_untouched _ _ _ _ _ Hn He).
  intros Hx. apply Ha. rewrite List.Forall_forall in Hw. apply Hw. apply elem_of_list_In. exact Hx.
Qed.

(** ...and takes from a presale's vaults, or from an escrow, only with the signature flag of its owner
    (unsold base tokens excepted, which go where the creator chose). *)
Theorem C75_signed w c w' l k p :
  reachable w -> entry w c = Ok (w', l) -> w_presales w !! k = Some p ->
  (bal w' (PQuoteVault k) < bal w (PQuoteVault k) ->
     signed c (p_owner p) \/ exists ek e, w_escrows w !! ek = Some e /\ e_presale e = k /\ signed c (e_owner e)) /\
  (bal w' (PBaseVault k) < bal w (PBaseVault k) ->
     signed c (p_owner p) \/ (exists ek e, w_escrows w !! ek = Some e /\ e_presale e = k /\ signed c (e_owner e)) \/
     exists p', w_presales w' !! k = Some p' /\ p_unsold_done p = 0 /\ p_unsold_done p' = 1).
Proof.
  intros Hw He Hp. unfold entry in He. destruct (call_op c) as [o|] eqn:Ho; [|discriminate He]. cbn [rbind] in He.
  destruct (C74_calls_sound _ _ Ho) as (Hn & Hs & _). rewrite List.Forall_forall in Hs.
  destruct (C12_no_outflow_without_authority _ _ _ _ _ _ Hw He Hp) as [Hq Hb]. split; intros Hlt.
  - specialize (Hq Hlt). destruct o; try contradiction Hq; cbn [may_take_quote] in Hq; destruct Hq as [-> [_ Hx]];
      cbn [signers_of In] in Hs.
    + destruct Hx as (e & E1 & E2 & E3). right. exists escrow, e. subst owner. auto 6.
    + destruct Hx as (e & E1 & E2 & E3). right. exists escrow, e. subst owner. auto 6.
    + destruct Hx as (p' & E1 & E2). left. assert (p' = p) as -> by congruence. subst owner. auto.
    + destruct Hx as (p' & E1 & E2). left. assert (p' = p) as -> by congruence. subst owner. auto.
  - specialize (Hb Hlt). destruct o; try contradiction Hb; cbn [may_take_base] in Hb; cbn [signers_of In] in Hs.
    + destruct Hb as [-> [_ (e & E1 & E2 & E3)]]. right. left. exists escrow, e. subst owner. auto 6.
    + subst presale. right. right. cbn [step] in He.
      apply unsold_inv in He as (p' & m & t & hh & am & w1 & fx & _ & Hp' & _ & _ & _ & _ & _ & _ & _ & _ & Hd & _ & _ & _ & _ & -> & _).
      assert (p' = p) as -> by congruence. exists (set_p_unsold_done 1 p). cbn. rewrite lookup_insert. auto.
    + destruct Hb as [-> [_ (p' & E1 & E2)]]. left. assert (p' = p) as -> by congruence. subst owner. auto.
Qed.
Theorem C75_escrow_signed w c w' l ek e :
  reachable w -> entry w c = Ok (w', l) -> w_escrows w !! ek = Some e -> ~ signed c (e_owner e) ->
  exists e', w_escrows w' !! ek = Some e' /\ e_owner e' = e_owner e /\ e_presale e' = e_presale e /\
    e_deposit e <= e_deposit e' /\ e_fee e <= e_fee e' /\ e_withdrawn e' = e_withdrawn e /\ e_claimed e' = e_claimed e.
Proof.
  intros Hw He Hx Hns. unfold entry in He. destruct (call_op c) as [o|] eqn:Ho; [|discriminate He]. cbn [rbind] in He.
  destruct (C74_calls_sound _ _ Ho) as (Hn & Hs & _). rewrite List.Forall_forall in Hs.
  destruct (C13_escrow_changes _ _ _ _ _ _ Hw He Hx) as [Hc Hi].
  destruct Hc as (e' & E1 & E2 & E3 & E4 & E5 & _).
  - intros [Hf _]. apply Hns. apply Hs.
    destruct o; try contradiction Hf; cbn [signed_for] in Hf; destruct Hf as [-> ->]; left; reflexivity.
  - exists e'. destruct (Hi _ E1) as (? & ? & _). auto 8.
Qed.
(** A presale appears at the address of the three keys it is made of, and only with the signature of the first
    one, so nobody else can be there first. *)
Theorem C75_base_signs w c w' l k p :
  reachable w -> entry w c = Ok (w', l) -> w_presales w !! k = None -> w_presales w' !! k = Some p ->
  k = PPresale (p_base p) (p_bmint p) (p_qmint p) /\ signed c (p_base p).
Proof.
  intros Hw He Hn Hp. pose proof (reachable_inv _ Hw) as Hi.
  unfold entry in He. destruct (call_op c) as [o|] eqn:Ho; [|discriminate He]. cbn [rbind] in He.
  destruct (C74_calls_sound _ _ Ho) as (_ & Hs & _). rewrite List.Forall_forall in Hs.
  pose proof (does_presale _ _ _ _ k (step_does _ _ _ _ Hi He)) as Hc.
  destruct Hc as [Hsame|base bm qm pt cr py bp qp a h p1 m1 m2 gross w1 lx Ho1 Hd Hn1 Hp1| | | | | | | | |]; [congruence|subst o|
    match goal with X : _ |- _ => destruct X; congruence end ..].
  assert (p1 = p) as -> by congruence. destruct Hd as [Hk _ _ _ Hd _ _ _ _]. destruct Hd.
  assert (p_base p = base /\ p_bmint p = bm /\ p_qmint p = qm) as (-> & -> & ->) by auto.
  split; [exact Hk|]. apply Hs. left. reflexivity.
Qed.
End WithCrypto.

(** * Examples *)

#[local] Existing Instance toy.
Definition ids : Ids := {|
  id_token := fun p => match p with SplToken => Wallet 9001 | Token2022 => Wallet 9002 end;
  id_system := Wallet 9003; id_memo := Wallet 9004; id_event_authority := Wallet 9005; id_program := Wallet 9006;
  key_of := fun b => if bool_decide (b = addr_bytes k1) then k1 else Wallet (Z.to_N (of_le b))
|}.
#[local] Existing Instance ids.

(** The histories of [Scenario], with the padding a client has to send *)
Definition widen (o : op) : op :=
  match o with
  | IInitPresale b bm qm pt cr py bp qp (mkInitArgs pa (mkLocked x1 x2 x3 x4 _) rs) h =>
    IInitPresale b bm qm pt cr py bp qp (mkInitArgs pa (mkLocked x1 x2 x3 x4 (zeros 24)) rs) h
  | o => o
  end.
Definition sendable_b (o : op) : bool :=
  env_op o || (match ix_of o with Some x => ix_valid x | None => false end &&
  match o with IInitFixedArgs k _ _ _ _ => bool_decide (key_of (addr_bytes k) = k) | _ => true end).
Lemma sendable_b_ok o : sendable_b o = true -> env_op o = true \/ sendable o.
Proof.
  unfold sendable_b, sendable. destruct (env_op o); [auto|]. cbn [orb]. rewrite andb_true_iff. intros [Hx Hk]. right.
  destruct (ix_of o); [|discriminate Hx]. split; [exact Hx|]. destruct o; try exact I. apply bool_decide_eq_true in Hk. exact Hk.
Qed.
Lemma widen_sendable l : forallb sendable_b (map widen l) = true ->
  forall o, o ∈ map widen l -> env_op o = true \/ sendable o.
Proof. rewrite forallb_forall. intros Hl o Ho. apply sendable_b_ok, Hl, elem_of_list_In, Ho. Qed.

(** Two whole sales as calls: all are sendable and accepted, and the calls lead to the same world. *)
Example C74_met :
  fold_left happens (map happening_of (map widen pr_paid)) genesis = run genesis (map widen pr_paid) /\
  forallb id (accepted genesis (map widen pr_paid)) = true /\
  fold_left happens (map happening_of (map widen fx_paid)) genesis = run genesis (map widen fx_paid) /\
  forallb id (accepted genesis (map widen fx_paid)) = true.
Proof.
  assert (Hne : id_token SplToken <> id_token Token2022) by discriminate.
  split; [apply (C74_calls_cover _ _ Hne), widen_sendable; vm_compute; reflexivity|].
  split; [vm_compute; reflexivity|].
  split; [apply (C74_calls_cover _ _ Hne), widen_sendable; vm_compute; reflexivity|].
  vm_compute; reflexivity.
Qed.

(** Alice withdraws 50 tokens; without their signature, or with an account passed read-only, the
    same call is rejected.  (The discriminator is written out, as another implementation of SHA-256
    gives it; the last byte is beyond the arguments.) *)
Definition withdraw_call (signs mut : bool) : call :=
  mkCall [mkMeta k1 false true; mkMeta (PQuoteVault k1) false mut; mkMeta qmint false false; mkMeta PAuth false false;
          mkMeta (esc alice 0) false true; mkMeta alice_q false true; mkMeta alice signs false;
          mkMeta (Wallet 9001) false false; mkMeta (Wallet 9004) false false; mkMeta (Wallet 9005) false false;
          mkMeta (Wallet 9006) false false]
    ([183; 18; 70; 156; 148; 109; 161; 34] ++ [50; 0; 0; 0; 0; 0; 0; 0] ++ [0; 0; 0; 0] ++ [7]) true.
Definition accepts (r : res (world * list fx)) : bool := match r with Ok _ => true | Err _ => false end.
Example C74_withdraw : call_op (withdraw_call true true) = Ok (back alice alice_q 0 50) /\
  accepts (entry w_pr_open (withdraw_call true true)) = true /\
  entry w_pr_open (withdraw_call false true) = Err MissingSigner /\
  entry w_pr_open (withdraw_call true false) = Err ConstraintHasOne.
Proof. repeat split; vm_compute; reflexivity. Qed.
Example C75_met : forall w' l, entry w_pr_open (withdraw_call true true) = Ok (w', l) ->
  bal w' (PQuoteVault k1) < bal w_pr_open (PQuoteVault k1) /\ signed (withdraw_call true true) alice /\
  untouched w_pr_open w' bob_q /\ ~ untouched w_pr_open w' alice_q.
Proof.
  intros w' l He.
  assert (Hw : forall a, bal w' a = match entry w_pr_open (withdraw_call true true) with Ok (w', _) => bal w' a | Err _ => 0 end)
    by (intros a; rewrite He; reflexivity).
  split; [rewrite Hw; vm_compute; reflexivity|].
  split; [exists (mkMeta alice true false); split; [apply elem_of_list_In; cbn [cl_accounts withdraw_call In]; auto 12|auto]|].
  split.
  - apply (C75_writable _ _ _ _ _ He). intros (m & Hm & Hk & Hx). apply elem_of_list_In in Hm.
    cbn [cl_accounts withdraw_call In] in Hm.
    repeat (destruct Hm as [<-|Hm]; [cbn in Hk, Hx; discriminate|]). destruct Hm.
  - intros (_ & _ & Ht & _). assert (Hb : bal w' alice_q = bal w_pr_open alice_q) by (unfold bal; rewrite Ht; reflexivity).
    rewrite Hw in Hb. vm_compute in Hb. discriminate Hb.
Qed.
(** Without the signature of the base key the presale is not opened. *)
Example C75_base_met : forall c, call_of (widen pr_init) = Some c ->
  accepts (entry (run genesis setup) c) = true /\
  entry (run genesis setup) (mkCall (map (fun m => mkMeta (am_key m) (am_signer m && negb (bool_decide (am_key m = base1))) (am_mut m))
    (cl_accounts c)) (cl_data c) true) = Err MissingSigner.
Proof. intros c Hc. injection Hc as <-. split; vm_compute; reflexivity. Qed.
