(** The golden tests of the CSV importers (src/importers/nationwide_csv.rs:536-,
    src/importers/paypal_csv.rs:353-376) run on the model: the data of
    testdata/importers/*.csv gives the transactions of *.golden.journal.  They
    also validate the SHA-1, base64 and decimal encodings. *)
From stdpp Require Import gmap list.
From Verif Require Import Base Types CommentModel Sha1 FingerprintModel NwCsvModel TzModel PaypalModel.
Open Scope N_scope.

Example sha1_abc : sha1 (s2l "abc") =
  [169; 153; 62; 54; 71; 6; 129; 106; 186; 62; 37; 113; 120; 80; 194; 108; 156; 208; 216; 157].
Proof. by_compute. Qed.
Example sha1_two_blocks : sha1 (s2l "abcdbcdecdefdefgefghfghighijhijkijkljklmklmnlmnomnopnopq") =
  [132; 152; 62; 68; 28; 59; 210; 110; 186; 174; 74; 161; 249; 81; 41; 229; 229; 70; 112; 241].
Proof. by_compute. Qed.
Example base64_examples : base64 (s2l "f") = s2l "Zg" ∧ base64 (s2l "fo") = s2l "Zm8" ∧
  base64 (s2l "foo") = s2l "Zm9v" ∧ base64 (s2l "foobar") = s2l "Zm9vYmFy".
Proof. split_and!; by_compute. Qed.

(** Dates "DD Mon YYYY", enough for the test data. *)
Definition months : list str :=
  [s2l "Jan"; s2l "Feb"; s2l "Mar"; s2l "Apr"; s2l "May"; s2l "Jun"; s2l "Jul"; s2l "Aug";
   s2l "Sep"; s2l "Oct"; s2l "Nov"; s2l "Dec"].
Fixpoint index_of (s : str) (l : list str) : option N :=
  match l with
  | [] => None
  | x :: l => if str_eqb s x then Some 0 else N.succ <$> index_of s l
  end.
Definition test_dates (s : str) : option date :=
  match split_on SPACE s with
  | [d; m; y] => m ← index_of m months; Some (Z.of_N (parse_digits y), m + 1, parse_digits d)
  | _ => None
  end.

Definition gbp (s : string) : str := POUND :: s2l s.
Arguments gbp s%string.
Definition text (l : list str) : option str := Some (join [NL] l).
Definition gbp_amount (neg : bool) (m : N) : option posting_amount :=
  Some (PostingAmount (Amount (Dec neg 2 m) GBP) None None).

(** ** nationwide_csv_5.csv *)
Definition nw5_rows : list csv_record :=
  [ [s2l "Account Name:"; s2l "My Account ****4321"];
    [s2l "Account Balance:"; gbp "-123.45"];
    [s2l "Available Balance:"; gbp "500.00"];
    FIVE_HEADERS;
    [s2l "01 Sep 2021"; s2l "FOO CO"; s2l "FOO.CO/THING#"; gbp "1.23"; []];
    [s2l "02 Sep 2021"; s2l "DIRECT DEBIT PAYMENT"; []; []; gbp "50.00"];
    [s2l "03 Sep 2021"; s2l "BAR CO"; s2l "THING#"; gbp "4.32"; []] ].
Definition nw5_trn (d : date) (desc : string) (peer : str) (neg : bool) (m : N)
    (fp1 fp2 : string) (loc : list str) (trns : string) : transaction :=
  Transaction None d None None None (s2l desc)
    [ Posting ASSETS_UNKNOWN Real (gbp_amount neg m) None None
        (text ([s2l ":import-self:"; s2l ":fp-nwcsv5.1.1zY5uuo1-" ++ s2l fp1 ++ s2l ":"; s2l ":unknown-account:";
               s2l "account: My Account ****4321"; s2l "bank: Nationwide"] ++ loc ++
               [s2l "seq: 1zY5uuo1-1"; s2l "transactions: " ++ s2l trns]));
      Posting peer Real (gbp_amount (negb neg) m) None None
        (text ([s2l ":import-peer:"; s2l ":fp-nwcsv5.1.1zY5uuo1-" ++ s2l fp2 ++ s2l ":"; s2l ":unknown-account:";
               s2l "account: My Account ****4321"; s2l "bank: Nationwide"] ++ loc ++
               [s2l "transactions: " ++ s2l trns])) ].
Example golden_nw5 :
  nw_csv_import test_dates default_order (NwOpts true NsGenerated) nw5_rows =
  Ok (s2l "1zY5uuo1",
   [ nw5_trn (2021%Z, 9, 1) "FOO CO @ FOO.CO/THING#" EXPENSES_UNKNOWN true 123
       "QNzoqO48q6tCbTaX5DIDZjPXP34" "ACmC/fGB2mCZLsTIO7yCeBDSAoI"
       [s2l "location: FOO.CO/THING#"] "FOO CO";
     nw5_trn (2021%Z, 9, 2) "DIRECT DEBIT PAYMENT" INCOME_UNKNOWN false 5000
       "6mDphYyBIR49iCfvXdS8VnRumk0" "ePa4jzaWgzw1sjfLNaqyvLYHPN4" [] "DIRECT DEBIT PAYMENT";
     nw5_trn (2021%Z, 9, 3) "BAR CO @ THING#" EXPENSES_UNKNOWN true 432
       "REb6n6Q8NDwGYdrJh649a/PoJkM" "t+dbw1FRk9XcdhAufUWfEczd+a4"
       [s2l "location: THING#"] "BAR CO" ]).
Proof. by_compute. Qed.

(** ** nationwide_csv_6.csv *)
Definition nw6_rows : list csv_record :=
  [ [s2l "Account Name:"; s2l "Current"];
    [s2l "Account Balance:"; gbp "150.00"];
    [s2l "Available Balance:"; gbp "150.00"];
    SIX_HEADERS;
    [s2l "01 Jan 2019"; s2l "ATM"; s2l "ATM Withdrawal"; gbp "30.00"; []; gbp "200.00"];
    [s2l "02 Jan 2019"; s2l "Transfer"; s2l "Payroll"; []; gbp "300.00"; gbp "500.00"];
    [s2l "05 Jan 2019"; s2l "Transfer"; s2l "Transfer to Savings"; gbp "100.00"; []; gbp "400.00"] ].
Definition nw6_trn (d : date) (desc : string) (peer : str) (neg : bool) (m b : N)
    (l1 fp1 l2 fp2 : string) (type : string) : transaction :=
  Transaction None d None None None (s2l desc)
    [ Posting ASSETS_UNKNOWN Real (gbp_amount neg m) (Some (BalAmount (Amount (Dec false 2 b) GBP))) None
        (text [s2l ":import-self:"; s2l ":fp-LVcP3L+Y-" ++ s2l l1 ++ s2l ":";
               s2l ":fp-nwcsv6.1.LVcP3L+Y-" ++ s2l fp1 ++ s2l ":"; s2l ":unknown-account:";
               s2l "account: Current"; s2l "bank: Nationwide"; s2l "seq: LVcP3L+Y-1";
               s2l "trn_type: " ++ s2l type]);
      Posting peer Real (gbp_amount (negb neg) m) None None
        (text [s2l ":import-peer:"; s2l ":fp-LVcP3L+Y-" ++ s2l l2 ++ s2l ":";
               s2l ":fp-nwcsv6.1.LVcP3L+Y-" ++ s2l fp2 ++ s2l ":"; s2l ":unknown-account:";
               s2l "account: Current"; s2l "bank: Nationwide"; s2l "trn_type: " ++ s2l type]) ].
Example golden_nw6 :
  nw_csv_import test_dates default_order (NwOpts true NsGenerated) nw6_rows =
  Ok (s2l "LVcP3L+Y",
   [ nw6_trn (2019%Z, 1, 1) "ATM Withdrawal" EXPENSES_UNKNOWN true 3000 20000
       "WW8uMNeoOKj6PZ9NZUDLVPkyNfI" "Ky2B1EX+g8t8t+n0PEJfFIJPuz8"
       "FJegoeyjgvrfvmUOwPWmB/v56ZU" "f8NXdRliIxN4DhLHNw1pY9Icq4Q" "ATM";
     nw6_trn (2019%Z, 1, 2) "Payroll" INCOME_UNKNOWN false 30000 50000
       "dJfxGn8yvRnpCrbtRFfOFhwuNqc" "+2BhknQ/nJg6syHTP5bnqhf0lao"
       "YPrvk5cO9uFIWdXxfEVQ7Fidgl0" "v9onoRlq26Ob+KhWGVa7oU4ykFU" "Transfer";
     nw6_trn (2019%Z, 1, 5) "Transfer to Savings" EXPENSES_UNKNOWN true 10000 40000
       "K6Ovwd43vF2NXlOH7jkG+0bPi1o" "+yLSkQxFEEt1d40BM3VMG3CoLpQ"
       "+TbEJQvPBEJT0NRA2ej8Dz5TXiE" "ROpe6Ut8w/+wxxhGEJCzsJnJLI8" "Transfer" ]).
Proof. by_compute. Qed.

(** ** paypal_csv.csv *)
(** Decimals arrive through f64: 5.00 becomes 5, 0.00 becomes 0 (golden journal:
    "USD-5", "GBP0"). *)
Definition pp_test_row (d : N) (h m s : N) (name : option str) (type : string) (st : pp_status)
    (cur : string) (a b : decimal) : pp_row :=
  PpRow (2019%Z, 1, d) (h, m, s, 0) (s2l "GMT") name (s2l type) st (s2l cur) a None b.
Definition PREAPPROVED := "Pre-approved Payment Bill User Payment"%string.
Definition DEPOSIT := "Bank deposit to PayPal account"%string.
Definition CONVERSION := "General Currency Conversion"%string.
Definition pp_test_rows : list pp_row :=
  [ pp_test_row 1 1 23 45 (Some (s2l "Somecompany Inc.")) PREAPPROVED PpCompleted "USD" (Dec true 0 5) (Dec true 0 5);
    pp_test_row 1 1 23 45 None DEPOSIT PpPending "GBP" (Dec false 2 432) (Dec false 2 432);
    pp_test_row 1 1 23 45 None CONVERSION PpCompleted "GBP" (Dec true 2 432) (Dec false 0 0);
    pp_test_row 1 1 23 45 None CONVERSION PpCompleted "USD" (Dec false 0 5) (Dec false 0 0);
    pp_test_row 2 12 34 56 None DEPOSIT PpPending "GBP" (Dec false 2 1234) (Dec false 2 1234);
    pp_test_row 2 12 34 56 None CONVERSION PpCompleted "GBP" (Dec true 2 1234) (Dec false 0 0);
    pp_test_row 2 12 34 56 None CONVERSION PpCompleted "USD" (Dec false 2 1337) (Dec false 0 0);
    pp_test_row 2 12 34 56 (Some (s2l "Othercompany Ltd.")) PREAPPROVED PpCompleted "USD" (Dec true 2 1337) (Dec true 2 1337) ].
Definition pp_posts (st : status) (cur : string) (a b : decimal) (peer : str) (fp1 fp2 : string)
    (name : option str) (type : string) : list posting :=
  let am a := Some (PostingAmount (Amount a (Commodity (s2l cur) PosLeft)) None None) in
  [ Posting ASSETS_UNKNOWN Real (am a) (Some (BalAmount (Amount b (Commodity (s2l cur) PosLeft)))) (Some st)
      (text [s2l ":import-self:"; s2l ":fp-paypal-" ++ s2l fp1 ++ s2l ":";
             s2l ":fp-ppcsv.1.paypal-" ++ s2l fp1 ++ s2l ":"; s2l ":unknown-account:"]);
    Posting peer Real (am (dec_neg a)) None (Some st)
      (text ([s2l ":import-peer:"; s2l ":fp-paypal-" ++ s2l fp2 ++ s2l ":"; s2l ":unknown-account:"]
             ++ match name with Some n => [s2l "trn_name: " ++ n] | None => [] end
             ++ [s2l "trn_type: " ++ s2l type])) ].
(** The dates of the two groups in UTC. *)
Definition test_tz (i : instant) : date := if (i.1 <? 1546387200)%Z then (2019%Z, 1, 1) else (2019%Z, 1, 2).
Example golden_paypal :
  rbind (tz_from_rows [(s2l "BST", s2l "UTC+01"); (s2l "GMT", s2l "UTC+00")]) (λ db,
    pp_import default_order true test_tz db (s2l "paypal") pp_test_rows) =
  Ok [ Transaction None (2019%Z, 1, 1) None None None (s2l "Somecompany Inc.")
         (pp_posts Cleared "USD" (Dec true 0 5) (Dec true 0 5) EXPENSES_UNKNOWN
            "xdlfoieFapm6Ysy3A9Ot7gqwc1o" "A28gcyqA+aQFSqETeaSbHrVimmI" (Some (s2l "Somecompany Inc.")) PREAPPROVED
          ++ pp_posts Pending "GBP" (Dec false 2 432) (Dec false 2 432) INCOME_UNKNOWN
            "Oo7zQfOd30Db+B/XJM2jXabHJBg" "evnIOChAA8J38rkuzfI+eOCG0pI" None DEPOSIT
          ++ pp_posts Cleared "GBP" (Dec true 2 432) (Dec false 0 0) EXPENSES_UNKNOWN
            "zDVqqHBrg2xM35kQSgdr2ctaQSE" "+dlSJ4WG+bCJXvk8W86UOUkilfE" None CONVERSION
          ++ pp_posts Cleared "USD" (Dec false 0 5) (Dec false 0 0) INCOME_UNKNOWN
            "z1lcF0Wi2R+fwqXO9qKuD0mJMzs" "efwhrrhy/FFgxuoY/IGyVux9aQU" None CONVERSION);
       Transaction None (2019%Z, 1, 2) None None None (s2l "Othercompany Ltd.")
         (pp_posts Pending "GBP" (Dec false 2 1234) (Dec false 2 1234) INCOME_UNKNOWN
            "5pEb+ghLkrbWNQGBs9ZaF7V3yTQ" "FVjQRTTiRf3imYx4qKa+jMNQw84" None DEPOSIT
          ++ pp_posts Cleared "GBP" (Dec true 2 1234) (Dec false 0 0) EXPENSES_UNKNOWN
            "oSCbF3JHn3zoeiv9ce/DLPYH2Zw" "hWzj0X5c5oTkshFWCfJxiPw2Xl4" None CONVERSION
          ++ pp_posts Cleared "USD" (Dec false 2 1337) (Dec false 0 0) INCOME_UNKNOWN
            "3p1fCm5WSFR42pRKpNlfquPLC7g" "t+2fE90iayDET/7cywru5NnZ3WE" None CONVERSION
          ++ pp_posts Cleared "USD" (Dec true 2 1337) (Dec true 2 1337) EXPENSES_UNKNOWN
            "YYpG0Elh0koWLxqd1GsjXtL5jrU" "LDNaz/r3yUxRX3GHKnsHMxwrkRg" (Some (s2l "Othercompany Ltd.")) PREAPPROVED) ].
Proof. by_compute. Qed.
