(** Model of presale_mode_handler/*.rs. *)
From Verif Require Import Base Math State.

(** * fixed_price_presale.rs, free functions *)

(** fixed_price_presale.rs:5-8 *)
Definition min_quote_amount_for_base_lamport (q_price : Z) : res Z :=
  cast64 (div_ceil q_price SCALE_MULTIPLIER).

(** fixed_price_presale.rs:10-15 *)
Definition calculate_token_bought (q_price amount : Z) : res Z :=
  let* q_amount := safe_shl128 amount SCALE_OFFSET in
  safe_div q_amount q_price.

(** fixed_price_presale.rs:17-26 *)
Definition ensure_token_buyable (q_price amount : Z) : res unit :=
  let* b := calculate_token_bought q_price amount in
  let* _ := require (0 <? b) ZeroTokenAmount in
  require (b <=? U64MAX) InvalidTokenPrice.

(** fixed_price_presale.rs:28-40 *)
Definition ensure_enough_presale_supply (q_price supply maximum_cap : Z) : res unit :=
  let* b := calculate_token_bought q_price maximum_cap in
  require (b <=? supply) InvalidTokenPrice.

(** fixed_price_presale.rs:42-54 *)
Definition ensure_gap_between_min_and_max (q_price min_cap max_cap : Z) : res unit :=
  let* bmin := calculate_token_bought q_price min_cap in
  let* bmax := calculate_token_bought q_price max_cap in
  let* delta := safe_sub bmax bmin in
  require (0 <? delta) PresaleMinMaxCapGapTooSmall.

(** fixed_price_presale.rs:56-73 *)
Definition calculate_quote_token_without_surplus (q_price amount : Z) : res Z :=
  let* b := calculate_token_bought q_price amount in
  let* m := safe_mul U128MAX b q_price in
  let* needed := cast64 (div_ceil m SCALE_MULTIPLIER) in
  let* _ := require (needed <=? amount) UndeterminedError in
  Ok needed.

(** * Handler objects *)

(** The three handler structs: fixed_price_presale.rs:75-82, prorata_presale.rs:4,
    fcfs_presale.rs:4-9 (padding omitted). *)
Inductive handler :=
| HFixed (q_price disable_withdraw disable_early : Z)
| HProrata
| HFcfs (disable_early : Z).

(** mod.rs:74-92.  The 48 byte raw area is reinterpreted: bytes 0-15 are [raw0], 16-31 are [raw1]
    (little endian).  FixedPrice: q_price = raw0, disable_withdraw = byte 16,
    disable_earlier_presale_end_once_cap_reached = byte 17.  Fcfs: byte 0. *)
Definition get_handler (p : presale) : res handler :=
  let* m := cast_mode (p_mode p) in
  match m with
  | FixedPrice => Ok (HFixed (p_raw0 p) (p_raw1 p mod 256) (p_raw1 p / 256 mod 256))
  | Prorata => Ok HProrata
  | Fcfs => Ok (HFcfs (p_raw0 p mod 256))
  end.

(** fixed_price_presale.rs:85-104: writes the three fields through the reinterpreted area *)
Definition fixed_initialize_data (p : presale) (q_price disable_early disable_withdraw : Z)
    : presale :=
  set_p_raw1 (p_raw1 p / 65536 * 65536 + disable_early * 256 + disable_withdraw)
    (set_p_raw0 q_price p).

(** fcfs_presale.rs:12-26 *)
Definition fcfs_initialize_data (p : presale) (disable_early : Z) : presale :=
  set_p_raw0 (p_raw0 p / 256 * 256 + disable_early) p.

(** mod.rs:61-72 *)
Fixpoint enforce_dynamic_caps (max_cap : Z) (l : list registry) : res unit :=
  match l with
  | [] => Ok tt
  | r :: l =>
    let* _ :=
      if reg_uninit r then Ok tt
      else require ((r_min_cap r =? 1) && (r_max_cap r =? max_cap)) InvalidBuyerCapRange in
    enforce_dynamic_caps max_cap l
  end.

(** fixed_price_presale.rs:148-177 *)
Fixpoint fixed_check_registries (q_price max_cap : Z) (permissioned : bool) (l : list registry)
    : res unit :=
  match l with
  | [] => Ok tt
  | r :: l =>
    let* _ :=
      if reg_uninit r then Ok tt else
      let* _ := ensure_token_buyable q_price (r_min_cap r) in
      let* _ := ensure_token_buyable q_price (r_max_cap r) in
      if permissioned then
        let* mq := min_quote_amount_for_base_lamport q_price in
        let* _ := require (r_min_cap r =? mq) InvalidBuyerCapRange in
        require (r_max_cap r =? max_cap) InvalidBuyerCapRange
      else Ok tt in
    fixed_check_registries q_price max_cap permissioned l
  end.

(** [PresaleModeHandler::initialize_presale]: fixed_price_presale.rs:116-202,
    prorata_presale.rs:7-20, fcfs_presale.rs:34-52.  [lookup] resolves a remaining account to a
    fixed price argument account of this program ([AccountLoader::try_from]); the unconsumed
    remaining accounts are returned. *)
Definition handler_initialize (h : handler) (presale_key : addr) (p : presale)
    (a : presale_args) (lookup : addr -> option fixed_args) (remaining : list addr)
    : res (presale * list addr) :=
  match h with
  | HFixed _ _ _ =>
    match remaining with
    | [] => Err MissingPresaleExtraParams
    | k :: rest =>
      let* x := ok_or (lookup k) AccountMissing in
      let* _ := require (beq_addr (x_presale x) presale_key) MissingPresaleExtraParams in
      let* wl := cast_wl (p_wl p) in
      let* _ := fixed_check_registries (x_qprice x) (p_max_cap p) (is_permissioned wl)
                  (p_regs p) in
      let* _ := ensure_enough_presale_supply (x_qprice x) (p_supply p) (p_max_cap p) in
      let* _ := ensure_gap_between_min_and_max (x_qprice x) (p_min_cap p) (p_max_cap p) in
      Ok (fixed_initialize_data p (x_qprice x) (pa_disable_early a) (x_disable_withdraw x), rest)
    end
  | HProrata =>
    let* wl := cast_wl (p_wl p) in
    let* _ := if is_permissioned wl then enforce_dynamic_caps (p_max_cap p) (p_regs p)
              else Ok tt in
    Ok (p, remaining)
  | HFcfs _ =>
    let* wl := cast_wl (p_wl p) in
    let* _ := if is_permissioned wl then enforce_dynamic_caps (p_max_cap p) (p_regs p)
              else Ok tt in
    Ok (fcfs_initialize_data p (pa_disable_early a), remaining)
  end.

(** fixed_price_presale.rs:206-242 *)
Definition fixed_remaining_quota (q_price : Z) (p : presale) (e : escrow) : res Z :=
  let* global := presale_remaining_quota p in
  let* r := get_reg p (e_idx e) in
  let* sold :=
    if 0 <? r_deposit r then
      let* b := calculate_token_bought q_price (r_deposit r) in
      let* b64 := cast64 b in
      Ok (Z.min b64 (r_supply r))
    else Ok 0 in
  if sold =? r_supply r then Ok 0 else
  let* rem := safe_sub (r_supply r) sold in
  let* m := safe_mul U128MAX rem q_price in
  let* rem_quota := cast64 (div_ceil m SCALE_MULTIPLIER) in
  let* personal := esc_remaining_quota e (r_max_cap r) in
  Ok (Z.min (Z.min global personal) rem_quota).

(** [get_remaining_deposit_quota]: fixed_price_presale.rs:206-242, prorata_presale.rs:22-26,
    fcfs_presale.rs:55-62 *)
Definition handler_remaining_quota (h : handler) (p : presale) (e : escrow) : res Z :=
  match h with
  | HFixed q _ _ => fixed_remaining_quota q p e
  | HProrata =>
    let* r := get_reg p (e_idx e) in
    esc_remaining_quota e (r_max_cap r)
  | HFcfs _ =>
    let* global := presale_remaining_quota p in
    let* r := get_reg p (e_idx e) in
    let* personal := esc_remaining_quota e (r_max_cap r) in
    Ok (Z.min global personal)
  end.

(** mod.rs:94-108 *)
Definition end_if_max_cap_reached (p : presale) (disabled : bool) (now : Z) : res presale :=
  if disabled then Ok p
  else if p_max_cap p <=? p_deposit p then recalculate_timing p now else Ok p.

(** [end_presale_if_max_cap_reached]: fixed_price_presale.rs:245-255, prorata_presale.rs:28-35,
    fcfs_presale.rs:64-74 *)
Definition handler_end_if_max_cap (h : handler) (p : presale) (now : Z) : res presale :=
  match h with
  | HFixed _ _ de => end_if_max_cap_reached p (negb (de =? 0)) now
  | HProrata => Ok p
  | HFcfs de => end_if_max_cap_reached p (negb (de =? 0)) now
  end.

(** [can_withdraw]: fixed_price_presale.rs:257-259, prorata_presale.rs:37-40,
    fcfs_presale.rs:76-79 *)
Definition handler_can_withdraw (h : handler) : bool :=
  match h with
  | HFixed _ dw _ => negb (negb (dw =? 0))
  | HProrata => true
  | HFcfs _ => false
  end.

(** [process_withdraw]: fixed_price_presale.rs:261-268, prorata_presale.rs:42-49,
    fcfs_presale.rs:81-88 (unreachable!) *)
Definition handler_process_withdraw (h : handler) (p : presale) (e : escrow) (amount : Z)
    : res (presale * escrow) :=
  match h with
  | HFixed _ _ _ | HProrata => presale_withdraw p e amount
  | HFcfs _ => Err Panic
  end.

(** [suggest_deposit_amount]: fixed_price_presale.rs:337-339, prorata_presale.rs:83-85,
    fcfs_presale.rs:122-124 *)
Definition handler_suggest_deposit (h : handler) (amount : Z) : res Z :=
  match h with
  | HFixed q _ _ => calculate_quote_token_without_surplus q amount
  | HProrata | HFcfs _ => Ok amount
  end.

(** [suggest_withdraw_amount]: fixed_price_presale.rs:341-346, prorata_presale.rs:87-89,
    fcfs_presale.rs:126-128 *)
Definition handler_suggest_withdraw (h : handler) (e : escrow) (amount : Z) : res Z :=
  match h with
  | HFixed q _ _ =>
    if e_deposit e =? amount then Ok amount else calculate_quote_token_without_surplus q amount
  | HProrata => Ok amount
  | HFcfs _ => Ok 0
  end.

(** mod.rs:110-127 *)
Fixpoint dynamic_sold_loop (l : list registry) (acc : Z) : res Z :=
  match l with
  | [] => Ok acc
  | r :: l =>
    if reg_uninit r then Ok acc
    else if r_deposit r =? 0 then dynamic_sold_loop l acc
    else let* acc := safe_add U64MAX acc (r_supply r) in dynamic_sold_loop l acc
  end.

(** fixed_price_presale.rs:291-304 *)
Fixpoint fixed_sold_loop (q_price : Z) (l : list registry) (acc : Z) : res Z :=
  match l with
  | [] => Ok acc
  | r :: l =>
    if reg_uninit r then Ok acc
    else if r_deposit r =? 0 then fixed_sold_loop q_price l acc
    else
      let* b := calculate_token_bought q_price (r_deposit r) in
      let* acc := safe_add U128MAX acc (Z.min b (r_supply r)) in
      fixed_sold_loop q_price l acc
  end.

(** [get_total_base_token_sold]: fixed_price_presale.rs:288-307, prorata_presale.rs:79-81,
    fcfs_presale.rs:118-120 *)
Definition handler_total_sold (h : handler) (p : presale) : res Z :=
  match h with
  | HFixed q _ _ => let* s := fixed_sold_loop q (p_regs p) 0 in cast64 s
  | HProrata | HFcfs _ => dynamic_sold_loop (p_regs p) 0
  end.

(** state/presale.rs:482-487 *)
Definition total_unsold_token (p : presale) (h : handler) : res Z :=
  let* sold := handler_total_sold h p in
  safe_sub (p_supply p) sold.

(** [get_escrow_cumulative_claimable_token]: fixed_price_presale.rs:309-335,
    prorata_presale.rs:60-77, fcfs_presale.rs:99-116 *)
Definition handler_cumulative (h : handler) (p : presale) (e : escrow) (now : Z) : res Z :=
  let* r := get_reg p (e_idx e) in
  let* sold :=
    match h with
    | HFixed q _ _ =>
      let* b := calculate_token_bought q (r_deposit r) in
      let* b64 := cast64 b in
      Ok (Z.min b64 (r_supply r))
    | HProrata | HFcfs _ => Ok (r_supply r)
    end in
  calculate_cumulative_claimable_amount_for_user (p_bps p) (p_imm_ts p) sold (p_vs p) (p_vest p)
    now (e_deposit e) (r_deposit r).

(** [update_pending_claim_amount]: fixed_price_presale.rs:270-286, prorata_presale.rs:51-58 and
    fcfs_presale.rs:90-97 through mod.rs:129-153.  (mod.rs:129-153 recomputes the cumulative
    amount with the same arguments as [get_escrow_cumulative_claimable_token].) *)
Definition handler_update_pending (h : handler) (p : presale) (e : escrow) (now : Z)
    : res escrow :=
  let* cum := handler_cumulative h p e now in
  let* s := esc_sum_claimed_pending e in
  let* claimable := safe_sub cum s in
  let* e' := esc_accumulate e claimable in
  Ok (set_e_refreshed now e').
