(** C98: what the program signs for. *)
From Coq Require Import Lia Ascii String.
From Verif Require Import Base Math State Handlers Token World Instr Exec Seeds P_Merkle P_Seeds.

(** * Every address of the program can be signed for with its seeds and a bump, as Anchor does when it
    creates the account. *)

Lemma preimage_bump s b pid : preimage s b pid = concat (s ++ [[b]]) ++ pid ++ PDA_MARKER.
Proof. unfold preimage. rewrite concat_app. cbn. rewrite <- app_assoc. reflexivity. Qed.

Lemma seeds_fit kr a s pid b : good_keys kr -> seeds_of kr a = Some (s, pid) ->
  ((16 <? List.length (s ++ [[b]]))%nat || existsb (fun s => 32 <? List.length s)%nat (s ++ [[b]])) = false.
Proof.
  intros Hg Hs. destruct a; open_seeds Hs; cbn -[le_bytes Nat.ltb];
    repeat match goal with X : key _ _ = Some ?x |- context [List.length ?x] => rewrite (key_length _ _ _ Hg X) end;
    rewrite ?le_bytes_length, ?(g_token _ Hg); reflexivity.
Qed.

Theorem C98_created_with_own_seeds kr a s pid x :
  good_keys kr -> seeds_of kr a = Some (s, pid) -> key kr a = Some x ->
  exists b, 1 <= b <= 255 /\ create_program_address kr (s ++ [[b]]) pid = Some x.
Proof.
  intros Hg Hs Hx. apply key_seeds in Hx as [(n & -> & _)|(s' & pid' & b & Hs' & Hb & Hh & Hc)]; [discriminate Hs|].
  rewrite Hs in Hs'. injection Hs' as <- <-. exists b. split; [assumption|].
  unfold create_program_address. rewrite (seeds_fit _ _ _ _ _ Hg Hs). rewrite <- preimage_bump, <- Hh, Hc. reflexivity.
Qed.

(** * The calls out of the vaults *)

Lemma try_bumps_pair_spec kr s pid n :
  try_bumps kr s pid n = match try_bumps_pair kr s pid n with Some (a, _) => Some a | None => None end /\
  forall a b, try_bumps_pair kr s pid n = Some (a, b) ->
    kr_curve kr a = false /\ a = kr_hash kr (preimage s b pid).
Proof.
  induction n as [|n IH]; [split; [reflexivity|discriminate]|]. cbn [try_bumps try_bumps_pair].
  destruct (kr_curve kr _) eqn:Hc; [exact IH|]. split; [reflexivity|].
  intros a b E. injection E as <- <-. auto.
Qed.

(** The seeds in [macros.rs] are those of the vault authority [PAuth]; calls that move a user's tokens get no
    signature in addition to those of the instruction, calls out of a vault exactly that one. *)
Theorem C98_vault_calls_signed_by_authority kr given :
  good_keys kr ->
  user_call_signers kr given = Some given /\
  vault_call_signers kr given = match key kr PAuth with Some x => Some (given ++ [x]) | None => None end.
Proof.
  intros Hg. split.
  { unfold user_call_signers, call_signers. cbn. rewrite app_nil_r. reflexivity. }
  unfold vault_call_signers, presale_authority_seeds, POOL_AUTHORITY_AND_BUMP. cbn [key].
  unfold find_program_address.
  destruct (try_bumps_pair_spec kr [PRESALE_AUTHORITY_PREFIX] (kr_program kr) 255) as [-> Hp].
  destruct (try_bumps_pair _ _ _ _) as [[a b]|]; [|reflexivity]. destruct (Hp a b eq_refl) as [Hc Ha].
  unfold call_signers. cbn [derived_signers]. unfold create_program_address.
  change [PRESALE_AUTHORITY_PREFIX; [b]] with ([PRESALE_AUTHORITY_PREFIX] ++ [[b]]).
  rewrite (seeds_fit kr PAuth _ (kr_program kr) b Hg) by reflexivity.
  rewrite <- preimage_bump, <- Ha, Hc. reflexivity.
Qed.

(** An account that a vault call is signed for, and that did not sign the instruction, is the vault
    authority; so the program cannot be made to sign for a presale, a vault, an escrow or a wallet. *)
Theorem C98_signs_for_nothing_else kr given l a x :
  good_keys kr -> in_width a -> vault_call_signers kr given = Some l ->
  key kr a = Some x -> x ∈ l -> x ∈ given \/ a = PAuth \/ collision kr a PAuth.
Proof.
  intros Hg Ha Hv Hx Hin. destruct (C98_vault_calls_signed_by_authority kr given Hg) as [_ E]. rewrite E in Hv.
  destruct (key kr PAuth) as [y|] eqn:Ek; [|discriminate]. injection Hv as <-.
  apply elem_of_app in Hin as [Hin|Hin]; [left; assumption|]. apply elem_of_list_singleton in Hin as ->. right.
  exact (C66_addresses_distinct kr Hg a PAuth y Ha I Hx Ek).
Qed.

(** * Example *)
Example C98_met :
  good_keys toy_ring /\
  (exists x, key toy_ring PAuth = Some x /\ vault_call_signers toy_ring [le_bytes 32 4] = Some [le_bytes 32 4; x]) /\
  presale_authority_seeds toy_ring = Some [str "presale_authority"; [255]] /\
  (exists x, key toy_ring (PBaseVault (PPresale (Wallet 1) (Wallet 2) (Wallet 3))) = Some x /\
     seeds_of toy_ring (PBaseVault (PPresale (Wallet 1) (Wallet 2) (Wallet 3))) <> None /\
     key toy_ring PAuth <> Some x).
Proof.
  split; [apply toy_ring_good|]. split; [eexists; split; vm_compute; reflexivity|].
  split; [vm_compute; reflexivity|]. eexists. split; [vm_compute; reflexivity|]. split; vm_compute; discriminate.
Qed.
