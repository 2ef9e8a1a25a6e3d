(** The cases of the unit tests of contracts/core, replayed on the model.

    These are tests of the model, not properties: they show that it computes what the code's own
    tests say the code computes.  Each example names the test and its place; paths are relative to
    contracts/core/src.  Omitted: error texts (the model has one error for a kind of failure), and
    the two cases of trade/mod.rs test_trade that run without a stored configuration, which no
    instantiated contract is. *)
From Coq Require Import NArith List String Bool.
From Verif Require Import Base Interface CoreModel ReceiptModel.
Import ListNotations.
Open Scope string_scope.
Open Scope N_scope.
Open Scope list_scope.

(** Decimals with three digits behind the point; MockApi accepts the addresses used; mock_env *)
Definition milli (n : N) : N := n * 1000000000000000.
Definition std_time : N := 1571797419.
Definition std_height : N := 12345.
Definition mock_at (t : N) : env := mkEnv t (fun _ => true) (fun _ _ => None) (fun _ _ => None).
Definition mock_info (who : addr) : info := mkInfo who [].
(** state/mod.rs:41-200 tests::StateBuilder, mock_config *)
Definition no_fees : fee := mkFee "" None None None.
Definition built (c : config) (f : fee) (supply : N) (us : units) (r : option rebalance) (res : option units) (ts : trades) : core :=
  mkCore c None f supply us r res ts.
Definition cfg (gov index reserve : string) : config := mkConfig gov pause_default index reserve.
Definition blank_core : core := built (cfg "gov" "" "") no_fees 0 [] None None [].
Definition verdict {A} (r : result A) : option error := match r with Ok _ => None | Err e => Some e end.

(** *** state/units.rs:199-232 *)
Example test_pop_key : let us := [("uatom", milli 500); ("uosmo", milli 250)] in
  lookup "uatom" us = Some (milli 500) /\ remove_first "uatom" us = [("uosmo", milli 250)]
  /\ lookup "uatom" (remove_first "uatom" us) = None
  /\ lookup "uosmo" (remove_first "uatom" us) = Some (milli 250) /\ remove_first "uosmo" (remove_first "uatom" us) = [].
Proof. vm_compute. repeat split; reflexivity. Qed.
Example test_prune_zero : filter nonzero [("uatom", milli 500); ("uosmo", milli 250); ("ujuno", 0)] = [("uatom", milli 500); ("uosmo", milli 250)].
Proof. vm_compute. reflexivity. Qed.
Example test_check_empty :
  map check_empty [[("uatom", milli 500); ("uosmo", 0)]; [("uatom", 0); ("uosmo", 0)]; []] = [false; true; true].
Proof. vm_compute. reflexivity. Qed.
Example test_check_duplication :
  map check_duplicate [[("uatom", milli 500); ("uatom", milli 250)]; [("uatom", milli 500); ("uosmo", milli 250)]] = [true; false].
Proof. vm_compute. reflexivity. Qed.
Example test_calc_refund_amount : let us := [("uatom", milli 500); ("uosmo", milli 250)] in
  calc_refund us [("uatom", 55); ("uosmo", 30)] 100 = Ok [("uatom", 5); ("uosmo", 5)]
  /\ calc_refund us [("uatom", 55); ("uosmo", 30); ("ujuno", 20)] 100 = Err EGeneric.
Proof. vm_compute. repeat split; reflexivity. Qed.

(** *** state/fee.rs *)
Definition year : N := 86400 * 365.
Definition yearly : streaming := mkStream 47529000 [] false 0.
Definition between (lo hi x : N) : bool := (lo <? x) && (x <? hi).
Example test_streaming_fee_collect :
  match collect yearly [("uatom", milli 20000000); ("uosmo", milli 10000000)] year 100 with
  | Ok (st, us) =>
      match collect st us year 100 with Ok (st2, us2) => (st2, us2) = (st, us) | Err _ => False end
      /\ match s_collected st, us with
         | [("uatom", f1); ("uosmo", f2)], [("uatom", u1); ("uosmo", u2)] =>
             between 2998 3000 f1 = true /\ between 1498 1500 f2 = true
             /\ between (milli 19970000) (milli 19970100) u1 = true /\ between (milli 9985000) (milli 9985100) u2 = true
         | _, _ => False
         end
  | Err _ => False
  end.
Proof. vm_compute. repeat split; reflexivity. Qed.
Example test_streaming_fee_collect_no_delta : let us := [("uatom", milli 2000); ("uosmo", milli 1000)] in
  collect (mkStream ONE [] false 0) us 0 100 = Ok (mkStream ONE [] false 0, us).
Proof. vm_compute. reflexivity. Qed.
Example test_streaming_fee_collect_freeze : let us := [("uatom", milli 2000); ("uosmo", milli 1000)] in
  collect (mkStream ONE [] true 0) us 86400 100 = Ok (mkStream ONE [] true 0, us).
Proof. vm_compute. reflexivity. Qed.
Example test_fee_check_rates :
  let stream r := mkFee "" None None (Some (mkStream r [] false 0)) in
  map check_rates
    [mkFee "" (Some (milli 1100)) None None; mkFee "" (Some (milli 900)) None None;
     mkFee "" None (Some (milli 1100)) None; mkFee "" None (Some (milli 900)) None;
     stream (milli 1100); stream (MAX_STREAMING_FEE_RATE + 47529000); stream 47529000]
  = [Err EInvalid; Ok tt; Err EInvalid; Ok tt; Err EInvalid; Err EInvalid; Ok tt].
Proof. vm_compute. reflexivity. Qed.

(** *** state/pause.rs:44-120, state/config.rs:45-100 *)
Example test_refresh :
  let same p := pause_refresh p std_time = p in
  same (mkPause false None) /\ same (mkPause false (Some std_time)) /\ same (mkPause true None) /\ same (mkPause true (Some (std_time + 1)))
  /\ pause_refresh (mkPause true (Some (std_time - 1))) std_time = mkPause false None.
Proof. vm_compute. repeat split; reflexivity. Qed.
Example test_check_gov : map (check_gov (cfg "gov" "" "")) ["user"; "gov"] = [Err EUnauthorized; Ok tt].
Proof. vm_compute. reflexivity. Qed.
Example test_assert_paused :
  let c p x := mkConfig "" (mkPause p x) "" "" in
  let both k := (assert_paused k std_time, assert_not_paused k std_time) in
  map both [c false None; c true (Some (std_time - 1)); c true (Some (std_time + 1)); c true None]
  = [(Err ENotPaused, Ok tt); (Err ENotPaused, Ok tt); (Ok tt, Err EPaused); (Ok tt, Err EPaused)].
Proof. vm_compute. reflexivity. Qed.

(** *** state/rebalance.rs:133-250 *)
Example test_rebalance_validate :
  let plan d f := mkRebal None d f in
  map (fun '(r, us) => rebal_validate r us)
    [(plan [] [("ukrw", milli 1000)], []); (plan [("ukrw", milli 1000)] [], []);
     (plan [("uatom", milli 1000); ("uatom", milli 1200)] [("ukrw", milli 1000)], [("uatom", milli 2300)]);
     (plan [("ukrw", milli 1000)] [("uosmo", milli 1000); ("uosmo", milli 1200)], [("uatom", milli 2300)]);
     (plan [("uatom", milli 2300)] [("ukrw", milli 1000)], [("uatom", milli 1000)]);
     (plan [("uosmo", milli 2300)] [("ukrw", milli 1000)], [("uatom", milli 1000)]);
     (plan [("uatom", milli 1300)] [("uatom", milli 1200)], [("uatom", milli 2300)]);
     (plan [("uatom", milli 1300)] [("uosmo", milli 1200)], [("uatom", milli 2300)])]
  = [Err EInvalid; Err EInvalid; Err EInvalid; Err EInvalid; Err EInvalid; Err EInvalid; Err EInvalid; Ok tt].
Proof. vm_compute. reflexivity. Qed.
Example test_trade_info_assert_cooldown :
  map (fun '(l, now) => assert_cooldown (mkTrade [] 60 0 l) now) [(None, 40); (Some 0, 40); (Some 0, 70)]
  = [Ok tt; Err EOnTradeCooldown; Ok tt].
Proof. vm_compute. reflexivity. Qed.
Example test_trade_info_update_last_traded_at : t_last (update_last (mkTrade [] 0 0 None) 12345) = Some 12345.
Proof. vm_compute. reflexivity. Qed.

(** *** execute/token.rs:197-500 *)
Definition token_core (f : fee) : core := built (cfg "" "uibcx" "") f 10000000 [("uatom", milli 1000)] None None [].
Definition minter : info := mkInfo "minter" [("uatom", 110)].
Definition mint100 : exec_msg := Mint 100 (Some "receiver") (Some "refund_to").
Example test_mint_with_fee : let s := token_core (mkFee "collector" (Some (milli 100)) None None) in
  mint (mock_at std_time) minter 100 (Some "receiver") (Some "refund_to") s
  = Ok (set_supply s (10000000 + 100),
        [MMint ("uibcx", 100); MSend "collector" [("uibcx", 10)]; MSend "receiver" [("uibcx", 90)]; MSend "refund_to" [("uatom", 10)]])
  /\ core_receipt std_height (mock_at std_time) minter mint100 s
     = Ok [("method", Txt "mint"); ("executor", Txt "minter"); ("receiver", Txt "receiver"); ("refund_to", Txt "refund_to"); ("amount", Num 100)].
Proof. vm_compute. repeat split; reflexivity. Qed.
Example test_mint_without_fee : let s := token_core (mkFee "collector" None None None) in
  mint (mock_at std_time) minter 100 (Some "receiver") (Some "refund_to") s
  = Ok (set_supply s (10000000 + 100), [MMint ("uibcx", 100); MSend "receiver" [("uibcx", 100)]; MSend "refund_to" [("uatom", 10)]]).
Proof. vm_compute. repeat split; reflexivity. Qed.
Definition burner : info := mkInfo "burner" [("uibcx", 100)].
Example test_burn_with_fee : let s := token_core (mkFee "collector" None (Some (milli 200)) None) in
  burn (mock_at std_time) burner (Some "redeem_to") s
  = Ok (set_supply s (10000000 - 80), [MBurn ("uibcx", 80); MSend "collector" [("uibcx", 20)]; MSend "redeem_to" [("uatom", 80)]])
  /\ core_receipt std_height (mock_at std_time) burner (Burn (Some "redeem_to")) s
     = Ok [("method", Txt "burn"); ("executor", Txt "burner"); ("redeem_to", Txt "redeem_to"); ("amount", Num 80)].
Proof. vm_compute. repeat split; reflexivity. Qed.
Example test_burn_without_fee : let s := token_core no_fees in
  burn (mock_at std_time) burner (Some "redeem_to") s
  = Ok (set_supply s (10000000 - 100), [MBurn ("uibcx", 100); MSend "redeem_to" [("uatom", 100)]]).
Proof. vm_compute. repeat split; reflexivity. Qed.

(** *** execute/fee.rs:52-220 *)
Definition fee_core (f : fee) : core := built (cfg "" "" "") f 1 [("uatom", milli 10000000)] None None [].
Example test_collect_streaming_fee :
  let s fz := fee_core (mkFee "" None None (Some (mkStream (milli 10) [] fz 0))) in
  collect_streaming_fee (mock_at 86400) (s true) = Ok (s true) /\ collect_streaming_fee (mock_at 0) (s false) = Ok (s false)
  /\ match collect_streaming_fee (mock_at 10) (s false) with
     | Ok s' =>
         match k_units s', option_map s_collected (f_stream (k_fee s')) with
         | [("uatom", u)], Some [("uatom", c)] => between (milli 8953700) (milli 8953800) u = true /\ c = 1046
         | _, _ => False
         end
     | Err _ => False
     end.
Proof. vm_compute. repeat split; reflexivity. Qed.
Example test_realize_streaming_fee :
  let due := [("uatom", 10000); ("uosmo", 12345)] in
  let s o := fee_core (mkFee "collector" None None (option_map (fun l => mkStream 0 l false 0) o)) in
  realize (mock_info "user") (s (Some due)) = Err EUnauthorized
  /\ realize (mock_info "collector") (s None) = Ok (s None, [])
  /\ realize (mock_info "collector") (s (Some due)) = Ok (s (Some []), [MSend "collector" due])
  /\ realize_receipt (mock_info "collector") = [("method", Txt "realize"); ("executor", Txt "collector")].
Proof. vm_compute. repeat split; reflexivity. Qed.

(** *** execute/gov/pause.rs:81-230 *)
Definition paused_core (p : pause_info) : core := built (mkConfig "gov" p "" "") no_fees 0 [] None None [].
Example test_pause :
  map (fun '(p, x) => verdict (gov_pause (mock_at std_time) (mock_info "gov") x (paused_core p)))
    [(mkPause false None, None); (mkPause false None, Some (std_time - 1)); (mkPause true None, None);
     (mkPause true (Some (std_time - 1)), Some (std_time - 1)); (mkPause true (Some (std_time - 1)), Some (std_time + 1))]
  = [None; Some EInvalid; Some EPaused; Some EInvalid; None]
  /\ gov_receipt (mock_info "gov") (Pause None) blank_core
     = Ok [("method", Txt "gov::pause"); ("executor", Txt "gov"); ("expires_at", Txt "never")]
  /\ gov_receipt (mock_info "gov") (Pause (Some (std_time + 1))) blank_core
     = Ok [("method", Txt "gov::pause"); ("executor", Txt "gov"); ("expires_at", Num (std_time + 1))].
Proof. vm_compute. repeat split; reflexivity. Qed.
Example test_release :
  map (fun p => verdict (gov_release (mock_at std_time) (mock_info "gov") (paused_core p)))
    [mkPause false None; mkPause true None; mkPause true (Some (std_time - 1))]
  = [Some ENotPaused; None; Some ENotPaused].
Proof. vm_compute. reflexivity. Qed.

(** *** execute/gov/update.rs:217-460 *)
Example test_update_gov :
  map (fun who => verdict (update_gov (mock_at std_time) (mock_info who) "new_gov" blank_core)) ["user"; "gov"] = [Some EUnauthorized; None]
  /\ gov_receipt (mock_info "gov") (UpdateGov "new_gov") blank_core
     = Ok [("method", Txt "gov::update_gov"); ("executor", Txt "gov"); ("pending_gov", Txt "new_gov")].
Proof. vm_compute. repeat split; reflexivity. Qed.
Example test_update_fee :
  let try who p s := match update_fee (mock_at std_time) (mock_info who) p s with Ok (s', ms) => Ok (k_fee s', ms) | Err e => Err e end in
  let pay m b st := mkFeePayload "collector" m b st in
  try "gov" (mkFeePayload "new_collector" None None None) blank_core = Ok (mkFee "new_collector" None None None, [])
  /\ try "gov" (pay (Some (milli 100)) None None) blank_core = Ok (mkFee "collector" (Some (milli 100)) None None, [])
  /\ try "gov" (pay None (Some (milli 100)) None) blank_core = Ok (mkFee "collector" None (Some (milli 100)) None, [])
  /\ try "gov" (pay None None (Some (21979553000, false))) blank_core
     = Ok (mkFee "collector" None None (Some (mkStream 21979553000 [] false std_time)), [])
  /\ try "user" (mkFeePayload "" None None None) blank_core = Err EUnauthorized
  /\ try "gov" (mkFeePayload "" None None None) (set_rebal blank_core (Some (mkRebal None [] []))) = Err EOnRebalancing.
Proof. vm_compute. repeat split; reflexivity. Qed.
Example test_update_rebalance_manager :
  let s m := set_rebal blank_core (Some (mkRebal m [] [])) in
  let try who m s := match update_manager (mock_at std_time) (mock_info who) m s with Ok (s', _) => Ok s' | Err e => Err e end in
  try "abuser" None (s (Some "manager")) = Err EUnauthorized /\ try "gov" None (s (Some "manager")) = Ok (s None)
  /\ try "gov" (Some "manager") (s None) = Ok (s (Some "manager"))
  /\ gov_receipt (mock_info "gov") (UpdateRebalanceManager None) blank_core
     = Ok [("method", Txt "gov::update_rebalance_manager"); ("executor", Txt "gov"); ("new_manager", Txt "none")].
Proof. vm_compute. repeat split; reflexivity. Qed.

(** *** execute/rebalance/init.rs:82-190, finalize.rs:75-300 *)
Example test_freeze_streaming_fee :
  f_stream (k_fee (freeze_fee (set_fee blank_core (mkFee "" None None (Some (mkStream 0 [] false 0)))))) = Some (mkStream 0 [] true 0).
Proof. vm_compute. reflexivity. Qed.
Example test_init :
  let s r := built (cfg "gov" "" "") no_fees 0 [("uatom", milli 1100)] r None [] in
  let go m r := rebal_init (mock_at std_time) (mock_info "gov") m [("uatom", milli 900)] [("uosmo", milli 1000)] (s r) in
  let opened m := set_reserve (s (Some (mkRebal m [("uatom", milli 900)] [("uosmo", milli 1000)]))) (Some []) in
  go (Some "manager") None = Ok (opened (Some "manager"), []) /\ go None None = Ok (opened None, [])
  /\ go None (Some (mkRebal None [] [])) = Err EOnRebalancing
  /\ rebal_receipt std_height (mock_at std_time) (mock_info "gov") (RInit None [] []) blank_core
     = Ok [("method", Txt "rebalance::init"); ("executor", Txt "gov"); ("manager", Txt "none")].
Proof. vm_compute. repeat split; reflexivity. Qed.
Example test_unfreeze_streaming_fee :
  let s st := set_fee blank_core (mkFee "" None None st) in
  unfreeze_fee 30 (s None) = s None /\ unfreeze_fee 12345 (s (Some (mkStream 0 [] true 10))) = s (Some (mkStream 0 [] false 12345)).
Proof. vm_compute. repeat split; reflexivity. Qed.
Definition closing_core (us res : units) (r : option rebalance) : core := built (cfg "" "" "") no_fees 0 us r (Some res) [].
Definition sell_down (m : option addr) : rebalance := mkRebal m [("uatom", milli 900)] [].
Example test_finalize :
  let go who u v r := verdict (finalize (mock_at std_time) (mock_info who) (closing_core [("uatom", u)] [("uatom", v)] r)) in
  go "user" (milli 890) 0 None = Some ENotOnRebalancing /\ go "user" (milli 890) 0 (Some (sell_down None)) = None
  /\ go "user" (milli 890) 0 (Some (sell_down (Some "manager"))) = Some EUnauthorized
  /\ go "manager" (milli 890) 0 (Some (sell_down (Some "manager"))) = None
  /\ go "manager" (milli 910) 0 (Some (sell_down (Some "manager"))) = Some EFinalize
  /\ go "manager" (milli 890) (milli 10) (Some (sell_down (Some "manager"))) = Some EFinalize
  /\ rebal_receipt std_height (mock_at std_time) (mock_info "manager") RFinalize blank_core
     = Ok [("method", Txt "rebalance::finalize"); ("executor", Txt "manager"); ("finalized_at", Num std_height)].
Proof. vm_compute. repeat split; reflexivity. Qed.
Example test_pruning :
  let go u target := match finalize (mock_at std_time) (mock_info "manager") (closing_core [("uatom", u)] [("uatom", 0)] (Some (mkRebal (Some "manager") [("uatom", target)] []))) with
    | Ok (s, _) => Some (k_units s, k_rebal s, k_reserve s) | Err _ => None end in
  go 0 0 = Some ([], None, None) /\ go (milli 890) (milli 900) = Some ([("uatom", milli 890)], None, None).
Proof. vm_compute. repeat split; reflexivity. Qed.

(** *** execute/rebalance/trade: mod.rs:70-140, deflate.rs:167-380, inflate.rs:125-320 *)
Example test_trade :
  let go who r := verdict (trade (mock_at std_time) (mock_info who) (Deflate "" 0 0) (set_rebal blank_core r)) in
  go "user" None = Some ENotOnRebalancing /\ go "user" (Some (mkRebal (Some "manager") [] [])) = Some EUnauthorized.
Proof. vm_compute. repeat split; reflexivity. Qed.
Definition sixty_forty : rebalance := mkRebal None [("uatom", milli 800)] [("ukrw", milli 6000); ("ujpy", milli 4000)].
Example test_deflate_reserve :
  let s := built (cfg "" "" "uatom") no_fees 10000 [("uatom", milli 1000)] (Some sixty_forty) (Some []) [] in
  deflate_reserve "uatom" sixty_forty s
  = Ok (set_reserve (set_units s [("uatom", milli 800)]) (Some [("ukrw", milli 120); ("ujpy", milli 80)]), [])
  /\ rebal_trade_receipt (mock_at std_time) (mock_info "manager") (Deflate "uatom" 0 0) s
     = Ok [("method", Txt "deflate"); ("executor", Txt "manager"); ("denom", Txt "uatom"); ("amount_in", Num 2000); ("amount_out", Num 2000); ("is_reserve", Txt "true")].
Proof. vm_compute. repeat split; reflexivity. Qed.
(** test/mock.rs:31-72: the chain quotes one uosmo for two of the other, in and out *)
Definition quoting (t : N) : env := mkEnv t (fun _ => true) (fun _ c => Some (snd c / 2)) (fun _ c => Some (2 * snd c)).
Definition pair_info (o : denom) (mx : N) (l : N) : trade_info := mkTrade [mkRoute 0 o] 60 mx (Some l).
Example test_deflate :
  let s := built (cfg "" "" "uosmo") no_fees 10000 [("uatom", milli 1000)] (Some sixty_forty) (Some []) [("uatom", [("uosmo", pair_info "uosmo" 2000 (std_time - 60))])] in
  let go t out mx := deflate (quoting t) "uatom" out mx sixty_forty s in
  go std_time 1000 2000
  = Ok (set_trades (set_reserve (set_units s [("uatom", milli 800)]) (Some [("ukrw", milli 60); ("ujpy", milli 40)])) [("uatom", [("uosmo", pair_info "uosmo" 2000 std_time)])],
        [MSwapOut [mkRoute 0 "uosmo"] ("uosmo", 1000) 2000])
  /\ go (std_time - 1) 1000 2000 = Err EOnTradeCooldown /\ go std_time 2001 4002 = Err ETrade
  /\ go std_time 1001 2002 = Err ETrade /\ go std_time 1000 1999 = Err ETrade
  /\ rebal_trade_receipt (quoting std_time) (mock_info "manager") (Deflate "uatom" 1000 2000) s
     = Ok [("method", Txt "deflate"); ("executor", Txt "manager"); ("denom", Txt "uatom"); ("amount_in", Num 2000); ("amount_out", Num 1000); ("is_reserve", Txt "false")].
Proof. vm_compute. repeat split; reflexivity. Qed.
Example test_inflate_reserve :
  let s := built (cfg "" "" "uatom") no_fees 10000 [("uatom", milli 800)] None (Some [("uatom", milli 1200)]) [] in
  inflate_reserve "uatom" s = Ok (set_reserve (set_units s [("uatom", milli 2000)]) (Some [("uatom", 0)]), [])
  /\ rebal_trade_receipt (mock_at std_time) (mock_info "manager") (Inflate "uatom" 0 0) s
     = Ok [("method", Txt "inflate"); ("executor", Txt "manager"); ("denom", Txt "uatom"); ("amount_in", Num 12000); ("amount_out", Num 12000); ("is_reserve", Txt "true")].
Proof. vm_compute. repeat split; reflexivity. Qed.
Example test_inflate :
  let s := built (cfg "" "" "uosmo") no_fees 10000 [] None (Some [("ukrw", milli 1000)]) [("uosmo", [("ukrw", pair_info "ukrw" 20000 (std_time - 60))])] in
  let go inn mn := inflate (quoting std_time) "ukrw" inn mn s in
  go 10000 5000
  = Ok (set_trades (set_reserve (set_units s [("ukrw", milli 500)]) (Some [("ukrw", 0)])) [("uosmo", [("ukrw", pair_info "ukrw" 20000 std_time)])],
        [MSwapIn [mkRoute 0 "ukrw"] ("uosmo", 10000) 5000])
  /\ go 20001 10000 = Err ETrade /\ go 10001 5000 = Err ETrade /\ go 10000 5001 = Err ETrade
  /\ rebal_trade_receipt (quoting std_time) (mock_info "manager") (Inflate "ukrw" 10000 5000) s
     = Ok [("method", Txt "inflate"); ("executor", Txt "manager"); ("denom", Txt "ukrw"); ("amount_in", Num 10000); ("amount_out", Num 5000); ("is_reserve", Txt "false")].
Proof. vm_compute. repeat split; reflexivity. Qed.
