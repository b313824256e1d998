(** A presale as a page of rules, written without the program: no accounts, no stored totals and no
    instructions, only who holds a seat, what was paid for it, and which moves are allowed. Addresses
    serve as names. P_Sale.v shows that the program plays by these rules. *)
From Verif Require Import Base Sums.

(** * What is fixed in advance *)

(** A tier of buyers: base tokens set aside, least and most a buyer may have in, fee in basis points. *)
Record tier := mkTier { ti_supply : Z; ti_min : Z; ti_max : Z; ti_bps : Z }.

(** A fixed price (quote tokens per base token, times 2^64), or shares of the supply. *)
Inductive kind := FixedPrice (price : Z) | Prorata | FirstCome.

Record rules := mkRules {
  ru_kind : kind;
  ru_early : bool;       (* ends as soon as it is full *)
  ru_exit : bool;        (* buyers may withdraw while it is open *)
  ru_tiers : list tier;
  ru_min : Z; ru_max : Z;
  ru_start : Z;
  ru_bps : Z;            (* part released at once, in basis points *)
  ru_wait : Z;           (* from the end to the release of that part *)
  ru_lock : Z;           (* from the end to the start of vesting *)
  ru_vest : Z            (* duration of vesting *)
}.

(** * What changes *)

(** A seat: what its holder has paid, the fee on top, the tokens taken out, whether money came back. *)
Record seat := mkSeat {
  sx_owner : addr; sx_tier : nat; sx_limit : Z;
  sx_paid : Z; sx_fee : Z; sx_got : Z; sx_back : bool
}.

(** The seats in use, those given up, and what the creator has done. *)
Record sale := mkSale {
  sl_now : Z; sl_end : Z;
  sl_seats : gmap addr seat; sl_gone : list seat;
  sl_took : bool; sl_fees : bool; sl_rest : bool
}.

(** * Totals, recomputed from the seats *)

Definition all (f : seat -> Z) (s : sale) : Z := msum (fun _ x => f x) (sl_seats s) + lsum f (sl_gone s).
Definition in_tier (i : nat) (f : seat -> Z) (x : seat) : Z := if Nat.eqb (sx_tier x) i then f x else 0.
Definition raised (s : sale) : Z := all sx_paid s.
Definition tier_raised (s : sale) (i : nat) : Z := all (in_tier i sx_paid) s.
Definition tier_fees (s : sale) (i : nat) : Z := all (in_tier i sx_fee) s.
Definition over_tiers (R : rules) (f : nat -> tier -> Z) : Z := lsum (fun n => n) (imap f (ru_tiers R)).

(** * Outcome *)

Definition is_open (R : rules) (s : sale) : Prop := ru_start R <= sl_now s < sl_end s.
Definition is_success (R : rules) (s : sale) : Prop := sl_end s <= sl_now s /\ ru_min R <= raised s.
Definition is_failure (R : rules) (s : sale) : Prop := sl_end s <= sl_now s /\ raised s < ru_min R.

(** * Tokens *)

Definition two64 : Z := 2 ^ 64.

Definition tier_sold (R : rules) (s : sale) (i : nat) (t : tier) : Z :=
  if tier_raised s i =? 0 then 0
  else match ru_kind R with
       | FixedPrice price => Z.min (tier_raised s i * two64 / price) (ti_supply t)
       | _ => ti_supply t
       end.
Definition left_over (R : rules) (s : sale) : Z := over_tiers R (fun i t => ti_supply t - tier_sold R s i t).

(** The part of [n] tokens released at once, and how much of the others has vested. *)
Definition at_once (R : rules) (n : Z) : Z := n * ru_bps R / 10000.
Definition released (R : rules) (s : sale) (n : Z) : Z :=
  let t := sl_now s - (sl_end s + ru_lock R) in
  if t <? 0 then 0 else if ru_vest R =? 0 then n else n * Z.min t (ru_vest R) / ru_vest R.

(** Tokens released to a seat by now, and in the end. *)
Definition tokens_by_now (R : rules) (s : sale) (x : seat) (t : tier) : Z :=
  let n := tier_sold R s (sx_tier x) t in
  let d := tier_raised s (sx_tier x) in
  (if sl_end s + ru_wait R <=? sl_now s then at_once R n * sx_paid x / d else 0) +
  released R s (n - at_once R n) * sx_paid x / d.
Definition tokens_in_full (R : rules) (s : sale) (x : seat) (t : tier) : Z :=
  let n := tier_sold R s (sx_tier x) t in
  let d := tier_raised s (sx_tier x) in
  at_once R n * sx_paid x / d + (n - at_once R n) * sx_paid x / d.

(** * Money *)

(** What was paid beyond the maximum, shared out over the tiers, and the fees that go with it. *)
Definition surplus (R : rules) (s : sale) : Z := Z.max 0 (raised s - ru_max R).
Definition tier_surplus (R : rules) (s : sale) (i : nat) : Z := surplus R s * tier_raised s i / raised s.
Definition tier_fee_back (R : rules) (s : sale) (i : nat) : Z :=
  tier_fees s i * tier_surplus R s i / tier_raised s i.
Definition money_back (R : rules) (s : sale) (x : seat) : Z :=
  let i := sx_tier x in
  if raised s <? ru_min R then sx_paid x + sx_fee x
  else sx_paid x * tier_surplus R s i / tier_raised s i + sx_fee x * tier_fee_back R s i / tier_fees s i.
Definition fees_kept (R : rules) (s : sale) : Z := over_tiers R (fun i _ => tier_fees s i - tier_fee_back R s i).

(** [a / b] rounded up; the price of the whole tokens that [n] buys; the fee on top of [n]. *)
Definition up (a b : Z) : Z := (a + b - 1) / b.
Definition price_of (R : rules) (n : Z) : Z :=
  match ru_kind R with
  | FixedPrice price => up (n * two64 / price * price) two64
  | _ => n
  end.
Definition fee_on (t : tier) (n : Z) : Z := up (n * 10000) (10000 - ti_bps t) - n.

(** * Moves *)

Inductive move :=
| Time (now : Z)
| Join (a owner : addr) (i : nat) (limit : Z)
| PayIn (a : addr) (n fee : Z)
| PayOut (a : addr) (n : Z)
| Refund (a : addr) (n : Z)
| Take (a : addr) (n : Z)
| Leave (a : addr)
| Raise (n : Z)
| Return (n : Z)
| Fees (n : Z)
| Rest (n : Z).

Definition put (a : addr) (x : seat) (s : sale) : sale :=
  mkSale (sl_now s) (sl_end s) (<[a := x]> (sl_seats s)) (sl_gone s) (sl_took s) (sl_fees s) (sl_rest s).
Definition paying (n fee : Z) (x : seat) : seat :=
  mkSeat (sx_owner x) (sx_tier x) (sx_limit x) (sx_paid x + n) (sx_fee x + fee) (sx_got x) (sx_back x).
Definition taking (n : Z) (x : seat) : seat :=
  mkSeat (sx_owner x) (sx_tier x) (sx_limit x) (sx_paid x) (sx_fee x) (sx_got x + n) (sx_back x).
Definition refunding (x : seat) : seat :=
  mkSeat (sx_owner x) (sx_tier x) (sx_limit x) (sx_paid x) (sx_fee x) (sx_got x) true.
Definition ending (t : Z) (s : sale) : sale :=
  mkSale (sl_now s) t (sl_seats s) (sl_gone s) (sl_took s) (sl_fees s) (sl_rest s).

(** Nothing is left for the holder of a seat. *)
Definition settled_up (R : rules) (s : sale) (x : seat) (t : tier) : Prop :=
  (is_open R s /\ sx_paid x = 0 /\ sx_fee x = 0) \/
  (is_failure R s /\ (sx_back x = true \/ sx_paid x + sx_fee x = 0)) \/
  (is_success R s /\ sx_got x = tokens_in_full R s x t /\ (sx_back x = true \/ money_back R s x = 0)).

Inductive plays1 (R : rules) (s : sale) : move -> sale -> Prop :=
| pl_time now : sl_now s <= now ->
    plays1 R s (Time now)
      (mkSale now (sl_end s) (sl_seats s) (sl_gone s) (sl_took s) (sl_fees s) (sl_rest s))
| pl_join a owner i limit t : is_open R s -> ru_tiers R !! i = Some t -> sl_seats s !! a = None ->
    (forall b x, sl_seats s !! b = Some x -> sx_owner x = owner -> sx_tier x <> i) ->
    0 < limit -> ti_min t <= limit <= ti_max t ->
    plays1 R s (Join a owner i limit) (put a (mkSeat owner i limit 0 0 0 false) s)
| pl_pay a x t n : is_open R s -> sl_seats s !! a = Some x -> ru_tiers R !! sx_tier x = Some t ->
    0 < n -> (exists offer, n = price_of R offer) -> ti_min t <= sx_paid x + n <= sx_limit x ->
    (ru_kind R <> Prorata -> raised s + n <= ru_max R) ->
    (forall price, ru_kind R = FixedPrice price ->
       n <= up ((ti_supply t - tier_sold R s (sx_tier x) t) * price) two64) ->
    plays1 R s (PayIn a n (fee_on t n))
      (let s' := put a (paying n (fee_on t n) x) s in
       if ru_early R && (raised s + n =? ru_max R) then ending (sl_now s) s' else s')
| pl_unpay a x t n : is_open R s -> ru_exit R = true -> sl_seats s !! a = Some x ->
    ru_tiers R !! sx_tier x = Some t -> 0 < n ->
    (n = sx_paid x \/ exists offer, n = price_of R offer /\ offer <= sx_paid x) ->
    n = sx_paid x \/ ti_min t <= sx_paid x - n ->
    plays1 R s (PayOut a n) (put a (paying (- n) 0 x) s)
| pl_refund a x : sl_seats s !! a = Some x -> sx_back x = false ->
    is_failure R s \/ (is_success R s /\ ru_kind R = Prorata) ->
    plays1 R s (Refund a (money_back R s x)) (put a (refunding x) s)
| pl_take a x t : sl_seats s !! a = Some x -> ru_tiers R !! sx_tier x = Some t -> is_success R s ->
    plays1 R s (Take a (tokens_by_now R s x t - sx_got x))
      (put a (taking (tokens_by_now R s x t - sx_got x) x) s)
| pl_leave a x t : sl_seats s !! a = Some x -> ru_tiers R !! sx_tier x = Some t -> settled_up R s x t ->
    plays1 R s (Leave a)
      (mkSale (sl_now s) (sl_end s) (delete a (sl_seats s)) (x :: sl_gone s) (sl_took s) (sl_fees s) (sl_rest s))
| pl_raise : is_success R s -> sl_took s = false ->
    plays1 R s (Raise (Z.min (raised s) (ru_max R)))
      (mkSale (sl_now s) (sl_end s) (sl_seats s) (sl_gone s) true (sl_fees s) (sl_rest s))
| pl_return : is_failure R s -> sl_took s = false ->
    plays1 R s (Return (over_tiers R (fun _ t => ti_supply t)))
      (mkSale (sl_now s) (sl_end s) (sl_seats s) (sl_gone s) true (sl_fees s) (sl_rest s))
| pl_fees : is_success R s -> sl_fees s = false ->
    plays1 R s (Fees (fees_kept R s))
      (mkSale (sl_now s) (sl_end s) (sl_seats s) (sl_gone s) (sl_took s) true (sl_rest s))
| pl_rest : is_success R s -> sl_rest s = false -> 0 < left_over R s ->
    plays1 R s (Rest (left_over R s))
      (mkSale (sl_now s) (sl_end s) (sl_seats s) (sl_gone s) (sl_took s) (sl_fees s) true).

Inductive plays (R : rules) (s : sale) : list move -> sale -> Prop :=
| plays_nil : plays R s [] s
| plays_snoc ms s1 m s2 : plays R s ms s1 -> plays1 R s1 m s2 -> plays R s (ms ++ [m]) s2.

(** Nobody is in yet. *)
Definition opening (R : rules) (s : sale) : Prop :=
  sl_seats s = ∅ /\ sl_gone s = [] /\ sl_took s = false /\ sl_fees s = false /\ sl_rest s = false /\
  sl_now s <= ru_start R /\ 60 <= sl_end s - ru_start R <= 60 * 60 * 24 * 30 /\
  0 < ru_min R <= ru_max R.
