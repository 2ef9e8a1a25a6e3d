(** C81-C83: what the contracts' response attributes ("receipts") say.

    Statements use ReceiptModel.v (the attributes as the code writes them),
    ReceiptSpec.v (a reader's books) and the specifications of the core, airdrop
    and periphery worlds. *)
From Coq Require Import NArith ZArith List String Bool.
From Verif Require Import Base Interface CoreModel World AirdropModel PoolModel PeripheryModel PeripheryWorld.
From Verif Require Import CoreSpec AirdropSpec PeripherySpec ReceiptModel ReceiptSpec ReceiptProofs.
From Verif Require Demo AirdropDemo PeripheryDemo.
Import ListNotations.
Open Scope string_scope.
Open Scope N_scope.
Open Scope list_scope.

(** ** C81 *)

Theorem C81_books_agree w hist b : none_is_nobody hist -> agrees b (w_core w) ->
  agrees (fold_left enter (journal w hist) b) (w_core (run w (map snd hist))).
Proof. apply journal_agrees. Qed.
Print Assumptions C81_books_agree.

Theorem C81_one_receipt h t w w' : run_tx t w = Ok w' ->
  exists name rest, published h (ETx t) w
    = [mkEntry h (e_now (tx_env t)) (("method", Txt name) :: ("executor", Txt (i_sender (tx_info t))) :: rest)].
Proof. apply tx_receipt. Qed.
Print Assumptions C81_one_receipt.

Theorem C81_mint_receipt h e i n rc rf s s' ms : execute e i (Mint n rc rf) s = Ok (s', ms) ->
  exists a b, core_receipt h e i (Mint n rc rf) s
       = Ok [("method", Txt "mint"); ("executor", Txt (i_sender i)); ("receiver", Txt a); ("refund_to", Txt b); ("amount", Num n)]
    /\ (forall x, rc = Some x -> a = x) /\ (rc = None -> a = i_sender i)
    /\ (forall x, rf = Some x -> b = x) /\ (rf = None -> b = i_sender i)
    /\ k_supply s' = k_supply s + n.
Proof. apply mint_reported. Qed.
Print Assumptions C81_mint_receipt.

Theorem C81_burn_receipt h e i rt s s' ms : execute e i (Burn rt) s = Ok (s', ms) ->
  exists a n, core_receipt h e i (Burn rt) s
       = Ok [("method", Txt "burn"); ("executor", Txt (i_sender i)); ("redeem_to", Txt a); ("amount", Num n)]
    /\ (forall x, rt = Some x -> a = x) /\ (rt = None -> a = i_sender i)
    /\ k_supply s' + n = k_supply s.
Proof. apply burn_reported. Qed.
Print Assumptions C81_burn_receipt.

(** A trade's receipt quotes the swap the contract orders. *)
Theorem C81_deflate_receipt h e i d out mx s s' ms : c_reserve (k_cfg s) <> d ->
  execute e i (Rebal (RTrade (Deflate d out mx))) s = Ok (s', ms) ->
  exists rt spent, ms = [MSwapOut rt (c_reserve (k_cfg s), out) spent] /\ spent <= mx
    /\ core_receipt h e i (Rebal (RTrade (Deflate d out mx))) s
       = Ok [("method", Txt "deflate"); ("executor", Txt (i_sender i)); ("denom", Txt d);
             ("amount_in", Num spent); ("amount_out", Num out); ("is_reserve", Txt "false")].
Proof. apply deflate_reported. Qed.
Print Assumptions C81_deflate_receipt.

Theorem C81_inflate_receipt h e i d inn mn s s' ms : c_reserve (k_cfg s) <> d ->
  execute e i (Rebal (RTrade (Inflate d inn mn))) s = Ok (s', ms) ->
  exists rt got, ms = [MSwapIn rt (c_reserve (k_cfg s), inn) got] /\ mn <= got
    /\ core_receipt h e i (Rebal (RTrade (Inflate d inn mn))) s
       = Ok [("method", Txt "inflate"); ("executor", Txt (i_sender i)); ("denom", Txt d);
             ("amount_in", Num inn); ("amount_out", Num got); ("is_reserve", Txt "false")].
Proof. apply inflate_reported. Qed.
Print Assumptions C81_inflate_receipt.

(** A chain on which "none" is no address, and a history there. *)
Definition env_here (t : N) : env :=
  mkEnv t (fun a => negb (String.eqb a "none")) (fun _ c => Some (snd c)) (fun _ c => Some (snd c)).
Definition here (t : N) (who : addr) (funds : list coin) (m : exec_msg) : N * event :=
  (t + 7, ETx (mkTx (env_here t) (mkInfo who funds) m Demo.one_to_one)).
Definition story : list (N * event) :=
  [here 1001 "alice" [("atom", 3000); ("osmo", 3000)] (Mint 1000 None None);
   (1008, ETransfer "bob" "core" [("usdc", 700)]);
   here 1002 "bob" [] (Gov Release);
   here 1002 "gov" [] (Gov (UpdateGov "dao"));
   here 1003 "gov" [] (Gov (UpdateTradeInfo "atom" [mkRoute 1 "usdc"] 60 5000));
   here 1004 "gov" [] (Rebal (RInit (Some "manager") [("atom", 1000000000000000000)] [("osmo", 1000000000000000000)]));
   here 1005 "manager" [] (Rebal (RTrade (Deflate "atom" 300 300)));
   here 1006 "dao" [] (Gov AcceptGov);
   here 1007 "dao" [] (Gov (UpdateRebalanceManager None))].
Definition book0 : book := mkBook 0 "gov" None (false, None) "usdc" None (fun _ _ => None).
Definition story_end : book := fold_left enter (journal (Demo.start Demo.no_fee Demo.basket) story) book0.

Example C81_example : none_is_nobody story /\ agrees book0 (w_core (Demo.start Demo.no_fee Demo.basket))
  /\ List.length (journal (Demo.start Demo.no_fee Demo.basket) story) = 7%nat
  /\ (b_supply story_end, b_gov story_end, b_pending story_end, b_manager story_end) = (1000, "dao", None, Some None)
  /\ b_trade story_end "atom" "usdc" = Some (mkTrade [mkRoute 1 "usdc"] 60 5000 (Some 1005)).
Proof.
  split; [|split; [|vm_compute; auto]].
  - intros h t H. repeat (destruct H as [H|H]; [inversion H; reflexivity|]). destruct H.
  - vm_compute. repeat split.
Qed.

(** The new fees are missing from the receipt of their update: two histories
    publish the same and leave different fees. *)
Theorem C81_fees_unreadable : exists w h1 h2, reachable w /\ journal w h1 = journal w h2
  /\ f_mint (k_fee (w_core (run w (map snd h1)))) <> f_mint (k_fee (w_core (run w (map snd h2)))).
Proof.
  exists (Demo.start Demo.no_fee Demo.basket),
    [here 1001 "gov" [] (Gov (UpdateFeeStrategy Demo.one_percent))], [here 1001 "gov" [] (Gov (UpdateFeeStrategy Demo.no_fee))].
  split; [apply (Demo.start_reachable Demo.no_fee Demo.basket []); vm_compute; reflexivity|].
  split; [vm_compute; reflexivity|vm_compute; discriminate].
Qed.
Print Assumptions C81_fees_unreadable.

(** ** C82 *)

Theorem C82_drop_books_agree A w hist : afresh w ->
  dagrees (fold_left denter (ajournal A w hist) blank) (aw_st (arun A w hist)).
Proof. apply ajournal_agrees. Qed.
Print Assumptions C82_drop_books_agree.

Theorem C82_one_receipt A t w w' : run_atx A t w = Ok w' ->
  exists r, apublished A (ATx t) w = [mkEntry (at_height t) 0 r] /\ txt "executor" r = i_sender (at_info t).
Proof. apply drop_tx_receipt. Qed.
Print Assumptions C82_one_receipt.

Theorem C82_payment_receipt A h i m s s' ps to c : aexecute A h i m s = Ok (s', ps) -> In (to, c) ps ->
  exists r, drop_receipt A i m s = Ok r
    /\ ((says "action" "claim" r = true /\ txt "claimer" r = to /\ num "amount" r = snd c)
        \/ (says "method" "close" r = true /\ num "redeemed" r = snd c)).
Proof. apply drop_payment. Qed.
Print Assumptions C82_payment_receipt.

Definition drop_story : list aevent :=
  [AGive "carol" ("uosmo", 100); ATx AirdropDemo.reg_open; ATx AirdropDemo.alice_claims; ATx AirdropDemo.alice_claims;
   ATx AirdropDemo.bob_is_helped; ATx AirdropDemo.carol_adds; ATx AirdropDemo.carol_closes].
Definition drop_end : drop_book := fold_left denter (ajournal AirdropDemo.toy AirdropDemo.empty_drop drop_story) blank.
Example C82_example : afresh AirdropDemo.empty_drop
  /\ List.length (ajournal AirdropDemo.toy AirdropDemo.empty_drop drop_story) = 5%nat
  /\ option_map g_label (q_page drop_end 0) = Some (Some "carol/spring")
  /\ option_map g_total (q_page drop_end 0) = Some 21 /\ option_map g_claimed (q_page drop_end 0) = Some 12
  /\ option_map g_closed (q_page drop_end 0) = Some (Some 15)
  /\ q_claim drop_end 0 "bob" = Some 7 /\ q_claim drop_end 0 "zed" = None /\ q_paid drop_end 0 = 21.
Proof. split; [reflexivity|]. vm_compute. auto 10. Qed.

(** ** C83 *)

Theorem C83_mint_in_receipt per t w w' core d mn cs si :
  reachable w -> pt_msg t = MintExactAmountIn core d mn cs ->
  parse_swap_info cs = Ok si -> routes_from si d -> collector w <> per ->
  ordinary t w -> d <> index_denom w -> run_ptx per t w = Ok w' ->
  exists paid m, i_funds (pt_info t) = [(d, paid)]
    /\ ppublished per t w
       = Ok [("method", Txt "mint_exact_amount_in"); ("executor", Txt (psender t));
             ("input", Amt (d, paid)); ("min_output", Amt (index_denom w, m))]
    /\ (Z.of_N m <= gain w w' (psender t) (index_denom w) <= Z.of_N m + 1)%Z.
Proof. apply mint_in_reported. Qed.
Print Assumptions C83_mint_in_receipt.

(** The "refund" is the change at the simulated price. *)
Theorem C83_mint_out_receipt per t w w' core n d cs si :
  reachable w -> pt_msg t = MintExactAmountOut core n d cs ->
  parse_swap_info cs = Ok si -> routes_from si d -> collector w <> per ->
  ordinary t w -> d <> index_denom w -> run_ptx per t w = Ok w' ->
  exists paid m quote s1, i_funds (pt_info t) = [(d, paid)]
    /\ ppublished per t w
       = Ok [("method", Txt "mint_exact_amount_out"); ("executor", Txt (psender t));
             ("max_input", Amt (d, paid)); ("output", Amt (index_denom w, m)); ("refund", Num (paid - quote))]
    /\ (Z.of_N m <= gain w w' (psender t) (index_denom w) <= Z.of_N m + 1)%Z
    /\ accrued (pt_env t) (w_core w) s1 /\ sim_cost (world_view t per w) si (k_units s1) d n = Ok quote.
Proof. apply mint_out_reported. Qed.
Print Assumptions C83_mint_out_receipt.

Theorem C83_burn_in_receipt per t w w' core d mn cs :
  pt_msg t = BurnExactAmountIn core d mn cs -> run_ptx per t w = Ok w' ->
  exists paid, i_funds (pt_info t) = [(index_denom w, paid)]
    /\ ppublished per t w
       = Ok [("method", Txt "burn_exact_amount_in"); ("executor", Txt (psender t));
             ("input_amount", Amt (index_denom w, paid)); ("min_output_amount", Amt (d, mn))].
Proof. apply burn_in_reported. Qed.
Print Assumptions C83_burn_in_receipt.

Theorem C83_burn_out_receipt per t w w' core want cs :
  pt_msg t = BurnExactAmountOut core want cs -> run_ptx per t w = Ok w' ->
  exists paid, i_funds (pt_info t) = [(index_denom w, paid)]
    /\ ppublished per t w
       = Ok [("method", Txt "burn_exact_amount_out"); ("executor", Txt (psender t));
             ("max_input", Amt (index_denom w, paid)); ("output", Amt want)].
Proof. apply burn_out_reported. Qed.
Print Assumptions C83_burn_out_receipt.

(** The closing call reports exactly the coins it sends. *)
Theorem C83_finish_receipt p i to d ms : p_execute p i (FinishOperation to d) = Ok ms ->
  exists n, ms = [PSend to [(d, n)]]
    /\ periphery_receipt p i (FinishOperation to d)
       = Ok [("method", Txt "finish_operation"); ("refund_to", Txt to); ("refund_asset", Txt d); ("amount", Num n)].
Proof. apply finish_receipt. Qed.
Print Assumptions C83_finish_receipt.

Import PeripheryDemo.
Example C83_example : reachable start1 /\ ordinary (mint_exact_out 1000 4000) start1
  /\ (exists w', run_ptx "per" (mint_exact_out 1000 4000) start1 = Ok w')
  /\ w_bal (after (mint_exact_out 1000 4000) start1) "alice" "idx" = 990
  /\ (exists refund, ppublished "per" (mint_exact_out 1000 4000) start1
        = Ok [("method", Txt "mint_exact_amount_out"); ("executor", Txt "alice");
              ("max_input", Amt ("usdc", 4000)); ("output", Amt ("idx", 990)); ("refund", Num refund)])
  /\ is_ok (ppublished "per" (burn_exact_out 990 3000) holding) = true.
Proof.
  split; [apply pstart_reachable; vm_compute; reflexivity|].
  split; [split; [apply alice_no_pool|vm_compute; discriminate]|].
  split; [apply Demo.okb_ok; vm_compute; reflexivity|]. split; [vm_compute; reflexivity|].
  split; [eexists; vm_compute; reflexivity|vm_compute; reflexivity].
Qed.
