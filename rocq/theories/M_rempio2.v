(** Argument reduction modulo pi/2: rem_pio2_large.rs, rem_pio2.rs, rem_pio2f.rs (in libm/src/math).
    Written by hand, the code works on mutable arrays.  Arrays are lists, [i!] indexing is
    [arr_get]/[arr_set], which are [None] out of bounds. *)
From Coq Require Import ZArith Bool List.
From Verif Require Import Base Spec Format Ieee M_basic M_scalbn M_elib.
Import ListNotations.
Open Scope Z_scope.
Open Scope fl_scope.

(** rem_pio2_large.rs 42-120: 2/pi in 24-bit digits, targets with 64-bit pointers *)
Definition IPIO2_64 : list Z :=
 [0xA2F983; 0x6E4E44; 0x1529FC; 0x2757D1; 0xF534DD; 0xC0DB62; 0x95993C; 0x439041; 0xFE5163;
   0xABDEBB; 0xC561B7; 0x246E3A; 0x424DD2; 0xE00649; 0x2EEA09; 0xD1921C; 0xFE1DEB; 0x1CB129;
   0xA73EE8; 0x8235F5; 0x2EBB44; 0x84E99C; 0x7026B4; 0x5F7E41; 0x3991D6; 0x398353; 0x39F49C;
   0x845F8B; 0xBDF928; 0x3B1FF8; 0x97FFDE; 0x05980F; 0xEF2F11; 0x8B5A0A; 0x6D1F6D; 0x367ECF;
   0x27CB09; 0xB74F46; 0x3F669E; 0x5FEA2D; 0x7527BA; 0xC7EBE5; 0xF17B3D; 0x0739F7; 0x8A5292;
   0xEA6BFB; 0x5FB11F; 0x8D5D08; 0x560330; 0x46FC7B; 0x6BABF0; 0xCFBC20; 0x9AF436; 0x1DA9E3;
   0x91615E; 0xE61B08; 0x659985; 0x5F14A0; 0x68408D; 0xFFD880; 0x4D7327; 0x310606; 0x1556CA;
   0x73A8C9; 0x60E27B; 0xC08C6B; 0x47C419; 0xC367CD; 0xDCE809; 0x2A8359; 0xC4768B; 0x961CA6;
   0xDDAF44; 0xD15719; 0x053EA5; 0xFF0705; 0x3F7E33; 0xE832C2; 0xDE4F98; 0x327DBB; 0xC33D26;
   0xEF6B1E; 0x5EF89F; 0x3A1F35; 0xCAF27F; 0x1D87F1; 0x21907C; 0x7C246A; 0xFA6ED5; 0x772D30;
   0x433B15; 0xC614B5; 0x9D19C3; 0xC2C4AD; 0x414D2C; 0x5D000C; 0x467D86; 0x2D71E3; 0x9AC69B;
   0x006233; 0x7CD2B4; 0x97A7B4; 0xD55537; 0xF63ED7; 0x1810A3; 0xFC764D; 0x2A9D64; 0xABD770;
   0xF87C63; 0x57B07A; 0xE71517; 0x5649C0; 0xD9D63B; 0x3884A7; 0xCB2324; 0x778AD6; 0x23545A;
   0xB91F00; 0x1B0AF1; 0xDFCE19; 0xFF319F; 0x6A1E66; 0x615799; 0x47FBAC; 0xD87F7E; 0xB76522;
   0x89E832; 0x60BFE6; 0xCDC4EF; 0x09366C; 0xD43F5D; 0xD7DE16; 0xDE3B58; 0x929BDE; 0x2822D2;
   0xE88628; 0x4D58E2; 0x32CAC6; 0x16E308; 0xCB7DE0; 0x50C017; 0xA71DF3; 0x5BE018; 0x34132E;
   0x621283; 0x014883; 0x5B8EF5; 0x7FB0AD; 0xF2E91E; 0x434A48; 0xD36710; 0xD8DDAA; 0x425FAE;
   0xCE616A; 0xA4280A; 0xB499D3; 0xF2A606; 0x7F775C; 0x83C2A3; 0x883C61; 0x78738A; 0x5A8CAF;
   0xBDD76F; 0x63A62D; 0xCBBFF4; 0xEF818D; 0x67C126; 0x45CA55; 0x36D9CA; 0xD2A828; 0x8D61C2;
   0x77C912; 0x142604; 0x9B4612; 0xC459C4; 0x44C5C8; 0x91B24D; 0xF31700; 0xAD43D4; 0xE54929;
   0x10D5FD; 0xFCBE00; 0xCC941E; 0xEECE70; 0xF53E13; 0x80F1EC; 0xC3E7B3; 0x28F8C7; 0x940593;
   0x3E71C1; 0xB3092E; 0xF3450B; 0x9C1288; 0x7B20AB; 0x9FB52E; 0xC29247; 0x2F327B; 0x6D550C;
   0x90A772; 0x1FE76B; 0x96CB31; 0x4A1679; 0xE27941; 0x89DFF4; 0x9794E8; 0x84E6E2; 0x973199;
   0x6BED88; 0x365F5F; 0x0EFDBB; 0xB49A48; 0x6CA467; 0x427271; 0x325D8D; 0xB8159F; 0x09E5BC;
   0x25318D; 0x3974F7; 0x1C0530; 0x010C0D; 0x68084B; 0x58EE2C; 0x90AA47; 0x02E774; 0x24D6BD;
   0xA67DF7; 0x72486E; 0xEF169F; 0xA6948E; 0xF691B4; 0x5153D1; 0xF20ACF; 0x339820; 0x7E4BF5;
   0x6863B2; 0x5F3EDD; 0x035D40; 0x7F8985; 0x295255; 0xC06437; 0x10D86D; 0x324832; 0x754C5B;
   0xD4714E; 0x6E5445; 0xC1090B; 0x69F52A; 0xD56614; 0x9D0727; 0x50045D; 0xDB3BB4; 0xC576EA;
   0x17F987; 0x7D6B49; 0xBA271D; 0x296996; 0xACCCC6; 0x5414AD; 0x6AE290; 0x89D988; 0x50722C;
   0xBEA404; 0x940777; 0x7030F3; 0x27FC00; 0xA871EA; 0x49C266; 0x3DE064; 0x83DD97; 0x973FA3;
   0xFD9443; 0x8C860D; 0xDE4131; 0x9D3992; 0x8C70DD; 0xE7B717; 0x3BDF08; 0x2B3715; 0xA0805C;
   0x93805A; 0x921110; 0xD8E80F; 0xAF806C; 0x4BFFDB; 0x0F9038; 0x761859; 0x15A562; 0xBBCB61;
   0xB989C7; 0xBD4010; 0x04F2D2; 0x277549; 0xF6B6EB; 0xBB22DB; 0xAA140A; 0x2F2689; 0x768364;
   0x333B09; 0x1A940E; 0xAA3A51; 0xC2A31D; 0xAEEDAF; 0x12265C; 0x4DC26D; 0x9C7A2D; 0x9756C0;
   0x833F03; 0xF6F009; 0x8C402B; 0x99316D; 0x07B439; 0x15200C; 0x5BC3D8; 0xC492F5; 0x4BADC6;
   0xA5CA4E; 0xCD37A7; 0x36A9E6; 0x9492AB; 0x6842DD; 0xDE6319; 0xEF8C76; 0x528B68; 0x37DBFC;
   0xABA1AE; 0x3115DF; 0xA1AE00; 0xDAFB0C; 0x664D64; 0xB705ED; 0x306529; 0xBF5657; 0x3AFF47;
   0xB9F96A; 0xF3BE75; 0xDF9328; 0x3080AB; 0xF68C66; 0x15CB04; 0x0622FA; 0x1DE4D9; 0xA4B33D;
   0x8F1B57; 0x09CD36; 0xE9424E; 0xA4BE13; 0xB52333; 0x1AAAF0; 0xA8654F; 0xA5C1D2; 0x0F3F0B;
   0xCD785B; 0x76F923; 0x048B7B; 0x721789; 0x53A6C6; 0xE26E6F; 0x00EBEF; 0x584A9B; 0xB7DAC4;
   0xBA66AA; 0xCFCF76; 0x1D02D1; 0x2DF1B1; 0xC1998C; 0x77ADC3; 0xDA4886; 0xA05DF7; 0xF480C6;
   0x2FF0AC; 0x9AECDD; 0xBC5C3F; 0x6DDED0; 0x1FC790; 0xB6DB2A; 0x3A25A3; 0x9AAF00; 0x9353AD;
   0x0457B6; 0xB42D29; 0x7E804B; 0xA707DA; 0x0EAA76; 0xA1597B; 0x2A1216; 0x2DB7DC; 0xFDE5FA;
   0xFEDB89; 0xFDBE89; 0x6C76E4; 0xFCA906; 0x70803E; 0x156E85; 0xFF87FD; 0x073E28; 0x336761;
   0x86182A; 0xEABD4D; 0xAFE7B3; 0x6E6D8F; 0x396795; 0x5BBF31; 0x48D784; 0x16DF30; 0x432DC7;
   0x356125; 0xCE70C9; 0xB8CB30; 0xFD6CBF; 0xA200A4; 0xE46C05; 0xA0DD5A; 0x476F21; 0xD21262;
   0x845CB9; 0x496170; 0xE0566B; 0x015299; 0x375550; 0xB7D51E; 0xC4F133; 0x5F6E13; 0xE4305D;
   0xA92E85; 0xC3B21D; 0x3632A1; 0xA4B708; 0xD4B1EA; 0x21F716; 0xE4698F; 0x77FF27; 0x80030C;
   0x2D408D; 0xA0CD4F; 0x99A520; 0xD3A2B3; 0x0A5D2F; 0x42F9B4; 0xCBDA11; 0xD0BE7D; 0xC1DB9B;
   0xBD17AB; 0x81A2CA; 0x5C6A08; 0x17552E; 0x550027; 0xF0147F; 0x8607E1; 0x640B14; 0x8D4196;
   0xDEBE87; 0x2AFDDA; 0xB6256B; 0x34897B; 0xFEF305; 0x9EBFB9; 0x4F6A68; 0xA82A4A; 0x5AC44F;
   0xBCF82D; 0x985AD7; 0x95C7F4; 0x8D4D0D; 0xA63A20; 0x5F57A4; 0xB13F14; 0x953880; 0x0120CC;
   0x86DD71; 0xB6DEC9; 0xF560BF; 0x11654D; 0x6B0701; 0xACB08C; 0xD0C0B2; 0x485551; 0x0EFB1E;
   0xC37295; 0x3B06A3; 0x3540C0; 0x7BDC06; 0xCC45E0; 0xFA294E; 0xC8CAD6; 0x41F3E8; 0xDE647C;
   0xD8649B; 0x31BED9; 0xC397A4; 0xD45877; 0xC5E369; 0x13DAF0; 0x3C3ABA; 0x461846; 0x5F7555;
   0xF5BDD2; 0xC6926E; 0x5D2EAC; 0xED440E; 0x423E1C; 0x87C461; 0xE9FD29; 0xF3D6E7; 0xCA7C22;
   0x35916F; 0xC5E008; 0x8DD7FF; 0xE26A6E; 0xC6FDB0; 0xC10893; 0x745D7C; 0xB2AD6B; 0x9D6ECD;
   0x7B723E; 0x6A11C6; 0xA9CFF7; 0xDF7329; 0xBAC9B5; 0x5100B7; 0x0DB2E2; 0x24BA74; 0x607DE5;
   0x8AD874; 0x2C150D; 0x0C1881; 0x94667E; 0x162901; 0x767A9F; 0xBEFDFD; 0xEF4556; 0x367ED9;
   0x13D9EC; 0xB9BA8B; 0xFC97C4; 0x27A831; 0xC36EF1; 0x36C594; 0x56A8D8; 0xB5A8B4; 0x0ECCCF;
   0x2D8912; 0x34576F; 0x89562C; 0xE3CE99; 0xB920D6; 0xAA5E6B; 0x9C2A3E; 0xCC5F11; 0x4A0BFD;
   0xFBF4E1; 0x6D3B8E; 0x2C86E2; 0x84D4E9; 0xA9B4FC; 0xD1EEEF; 0xC9352E; 0x61392F; 0x442138;
   0xC8D91B; 0x0AFC81; 0x6A4AFB; 0xD81C2F; 0x84B453; 0x8C994E; 0xCC2254; 0xDC552A; 0xD6C6C0;
   0x96190B; 0xB8701A; 0x649569; 0x605A26; 0xEE523F; 0x0F117F; 0x11B5F4; 0xF5CBFC; 0x2DBC34;
   0xEEBC34; 0xCC5DE8; 0x605EDD; 0x9B8E67; 0xEF3392; 0xB817C9; 0x9B5861; 0xBC57E1; 0xC68351;
   0x103ED8; 0x4871DD; 0xDD1C2D; 0xA118AF; 0x462C21; 0xD7F359; 0x987AD9; 0xC0549E; 0xFA864F;
   0xFC0656; 0xAE79E5; 0x362289; 0x22AD38; 0xDC9367; 0xAAE855; 0x382682; 0x9BE7CA; 0xA40D51;
   0xB13399; 0x0ED7A9; 0x480569; 0xF0B265; 0xA7887F; 0x974C88; 0x36D1F9; 0xB39221; 0x4A827B;
   0x21CF98; 0xDC9F40; 0x5547DC; 0x3A74E1; 0x42EB67; 0xDF9DFE; 0x5FD45E; 0xA4677B; 0x7AACBA;
   0xA2F655; 0x23882B; 0x55BA41; 0x086E59; 0x862A21; 0x834739; 0xE6E389; 0xD49EE5; 0x40FB49;
   0xE956FF; 0xCA0F1C; 0x8A59C5; 0x2BFA94; 0xC5C1D3; 0xCFC50F; 0xAE5ADB; 0x86C547; 0x624385;
   0x3B8621; 0x94792C; 0x876110; 0x7B4C2A; 0x1A2C80; 0x12BF43; 0x902688; 0x893C78; 0xE4C4A8;
   0x7BDBE5; 0xC23AC4; 0xEAF426; 0x8A67F7; 0xBF920D; 0x2BA365; 0xB1933D; 0x0B7CBD; 0xDC51A4;
   0x63DD27; 0xDDE169; 0x19949A; 0x9529A8; 0x28CE68; 0xB4ED09; 0x209F44; 0xCA984E; 0x638270;
   0x237C7E; 0x32B90F; 0x8EF5A7; 0xE75614; 0x08F121; 0x2A9DB5; 0x4D7E6F; 0x5119A5; 0xABF9B5;
   0xD6DF82; 0x61DD96; 0x023616; 0x9F3AC4; 0xA1A283; 0x6DED72; 0x7A8D39; 0xA9B882; 0x5C326B;
   0x5B2746; 0xED3400; 0x7700D2; 0x55F4FC; 0x4D5901; 0x8071E0].
(** rem_pio2_large.rs 30-39: targets with 16-bit or 32-bit pointers *)
Definition IPIO2_32 : list Z :=
 [0xA2F983; 0x6E4E44; 0x1529FC; 0x2757D1; 0xF534DD; 0xC0DB62; 0x95993C; 0x439041; 0xFE5163;
   0xABDEBB; 0xC561B7; 0x246E3A; 0x424DD2; 0xE00649; 0x2EEA09; 0xD1921C; 0xFE1DEB; 0x1CB129;
   0xA73EE8; 0x8235F5; 0x2EBB44; 0x84E99C; 0x7026B4; 0x5F7E41; 0x3991D6; 0x398353; 0x39F49C;
   0x845F8B; 0xBDF928; 0x3B1FF8; 0x97FFDE; 0x05980F; 0xEF2F11; 0x8B5A0A; 0x6D1F6D; 0x367ECF;
   0x27CB09; 0xB74F46; 0x3F669E; 0x5FEA2D; 0x7527BA; 0xC7EBE5; 0xF17B3D; 0x0739F7; 0x8A5292;
   0xEA6BFB; 0x5FB11F; 0x8D5D08; 0x560330; 0x46FC7B; 0x6BABF0; 0xCFBC20; 0x9AF436; 0x1DA9E3;
   0x91615E; 0xE61B08; 0x659985; 0x5F14A0; 0x68408D; 0xFFD880; 0x4D7327; 0x310606; 0x1556CA;
   0x73A8C9; 0x60E27B; 0xC08C6B].
(** rem_pio2_large.rs 122-131: pi/2 in 24-bit pieces *)
Definition PIO2 : list Z :=
  [0x3ff921fb40000000 (* 1.57079625129699707031e+00 *);
   0x3e74442d00000000 (* 7.54978941586159635335e-08 *);
   0x3cf8469880000000 (* 5.39030252995776476554e-15 *);
   0x3b78cc5160000000 (* 3.28200341580791294123e-22 *);
   0x39f01b8380000000 (* 1.27065575308067607349e-29 *);
   0x387a252040000000 (* 1.22933308981111328932e-36 *);
   0x36e3822280000000 (* 2.73370053816464559624e-44 *);
   0x3569f31d00000000 (* 2.16741683877804819444e-51 *)].
(** rem_pio2_large.rs 17 *)
Definition INIT_JK : list Z := [3; 4; 4; 6].
(** 226-227: 2^24 and 2^-24; then the literals 1.0, 8.0, 0.125, 0.5 *)
Definition x1p24 : Z := 0x4170000000000000.
Definition x1p_24 : Z := 0x3e70000000000000.
Definition c_one : Z := 0x3ff0000000000000.
Definition c_two : Z := 0x4000000000000000.
Definition c_three : Z := 0x4008000000000000.
Definition c_four : Z := 0x4010000000000000.
Definition c_eight : Z := 0x4020000000000000.
Definition c_eighth : Z := 0x3fc0000000000000.
Definition c_half : Z := 0x3fe0000000000000.

Section Large.
(** [true]: the target has 64-bit pointers (lines 29, 41 and 229) *)
Variable ptr64 : bool.
Definition IPIO2 : list Z := if ptr64 then IPIO2_64 else IPIO2_32.

(** 257-266: the array [f] *)
Definition rpl_f (jx jv jk : Z) : option (list Z) :=
  let* j0 := ssub 32 (to_i 32 jv) (to_i 32 jx) in
  let* m := uadd 64 jx jk in
  let* r := for_incl 0 m (fun i (s : Z * list Z) =>
      let '(j, f) := s in
      let* v := (if j <? 0 then Some 0 else
                 let* d := arr_get IPIO2 (to_u 64 j) in Some (of_int f64 d)) in
      let* f := arr_set f i v in
      let* j := sadd 32 j 1 in
      Some (j, f)) (j0, repeat 0 20) in
  Some (snd r).

(** 271-274 and 361-364: one coefficient of the product of [x] and 2/pi *)
Definition rpl_dot (x f : list Z) (jx i : Z) : option Z :=
  for_incl 0 jx (fun j fw =>
    let* a := arr_get x j in
    let* k := uadd 64 jx i in
    let* k := usub 64 k j in
    let* b := arr_get f k in
    Some (fw +: (a *: b))) 0.

(** 269-276 *)
Definition rpl_q (x f : list Z) (jx jk : Z) : option (list Z) :=
  for_incl 0 jk (fun i q =>
    let* fw := rpl_dot x f jx i in
    arr_set q i fw) (repeat 0 20).

(** 281-289: distill [q] into [iq] *)
Definition rpl_distill (q iq : list Z) (jz : Z) : option (Z * list Z) :=
  let* z := arr_get q jz in
  let* r := for_rev 1 jz (fun j (s : Z * Z * list Z) =>
      let '(i, z, iq) := s in
      let fw := of_int f64 (to_i32 f64 (x1p_24 *: z)) in
      let* iq := arr_set iq (to_u 64 i) (to_i32 f64 (z -: (x1p24 *: fw))) in
      let* k := usub 64 j 1 in
      let* qk := arr_get q k in
      let* i := sadd 32 i 1 in
      Some (i, qk +: fw, iq)) (0, z, iq) in
  let '(_, z, iq) := r in Some (z, iq).

(** 291-307: the integer part [n], the sign information [ih]; returns [(n, ih, z, iq)] *)
Definition rpl_n (z q0 jz : Z) (iq : list Z) : option (Z * Z * Z * list Z) :=
  let* z := scalbn f64 z q0 in
  let* fl := floor f64 (z *: c_eighth) in
  let z := z -: (c_eight *: fl) in
  let n := to_i32 f64 z in
  let z := z -: of_int f64 n in
  if 0 <? q0 then
    let* jm := usub 64 jz 1 in
    let* a := arr_get iq jm in
    let* sh := ssub 32 24 q0 in
    let* i := sshr 32 a sh in
    let* n := sadd 32 n i in
    let* b := sshl 32 i sh in
    let* a := ssub 32 a b in
    let* iq := arr_set iq jm a in
    let* sh := ssub 32 23 q0 in
    let* ih := sshr 32 a sh in
    Some (n, ih, z, iq)
  else if q0 =? 0 then
    let* jm := usub 64 jz 1 in
    let* a := arr_get iq jm in
    Some (n, Z.shiftr a 23, z, iq)
  else if fge f64 z c_half then Some (n, 2, z, iq)
  else Some (n, 0, z, iq).

(** 309-343: replace q by 1-q when q > 1/2; returns [(n, z, iq)] *)
Definition rpl_flip (n ih z q0 jz : Z) (iq : list Z) : option (Z * Z * list Z) :=
  if 0 <? ih then
    let* n := sadd 32 n 1 in
    let* r := for_incl 0 (jz - 1) (fun i (s : Z * list Z) =>
        let '(carry, iq) := s in
        let* j := arr_get iq i in
        if carry =? 0 then
          if negb (j =? 0) then
            let* d := ssub 32 0x1000000 j in
            let* iq := arr_set iq i d in
            Some (1, iq)
          else Some (carry, iq)
        else
          let* d := ssub 32 0xffffff j in
          let* iq := arr_set iq i d in
          Some (carry, iq)) (0, iq) in
    let '(carry, iq) := r in
    let* iq :=
      (if q0 =? 1 then
         let* jm := usub 64 jz 1 in
         let* a := arr_get iq jm in
         arr_set iq jm (Z.land a 0x7fffff)
       else if q0 =? 2 then
         let* jm := usub 64 jz 1 in
         let* a := arr_get iq jm in
         arr_set iq jm (Z.land a 0x3fffff)
       else Some iq) in
    if ih =? 2 then
      let z := c_one -: z in
      if negb (carry =? 0) then
        let* t := scalbn f64 c_one q0 in
        Some (n, z -: t, iq)
      else Some (n, z, iq)
    else Some (n, z, iq)
  else Some (n, z, iq).

(** 347-350: or of the digits [iq[jk..jz-1]] *)
Definition rpl_or (iq : list Z) (jk jz : Z) : option Z :=
  let* jm := usub 64 jz 1 in
  for_rev jk jm (fun i j => let* a := arr_get iq i in Some (Z.lor j a)) 0.

(** 353-356: the number of further terms needed *)
Definition rpl_k (iq : list Z) (jk : Z) : option Z :=
  run 25 (fun k =>
    let* i := usub 64 jk k in
    let* a := arr_get iq i in
    if a =? 0 then
      let* k := uadd 64 k 1 in
      Some (Cont k)
    else Some (Ret k)) 1.

(** 358-366: extend [q] and [f] *)
Definition rpl_more (x f q : list Z) (jx jv jz k : Z) : option (list Z * list Z) :=
  let* lo := uadd 64 jz 1 in
  let* hi := uadd 64 jz k in
  for_incl lo hi (fun i (s : list Z * list Z) =>
    let '(f, q) := s in
    let* a := uadd 64 jv i in
    let* d := arr_get IPIO2 a in
    let* b := uadd 64 jx i in
    let* f := arr_set f b (of_int f64 d) in
    let* fw := rpl_dot x f jx i in
    let* q := arr_set q i fw in
    Some (f, q)) (f, q).

(** 280-373: one round of ['recompute]; the state is [(f, q, iq, jz)], the result
    [(n, ih, z, iq, q, jz)] *)
Definition rpl_step (x : list Z) (jx jv jk q0 : Z) (s : list Z * list Z * list Z * Z)
  : option (ctl (list Z * list Z * list Z * Z) (Z * Z * Z * list Z * list Z * Z)) :=
  let '(f, q, iq, jz) := s in
  let* d := rpl_distill q iq jz in
  let '(z, iq) := d in
  let* r := rpl_n z q0 jz iq in
  let '(n, ih, z, iq) := r in
  let* r := rpl_flip n ih z q0 jz iq in
  let '(n, z, iq) := r in
  if feq f64 z 0 then
    let* j := rpl_or iq jk jz in
    if j =? 0 then
      let* k := rpl_k iq jk in
      let* fq := rpl_more x f q jx jv jz k in
      let '(f, q) := fq in
      let* jz := uadd 64 jz k in
      Some (Cont (f, q, iq, jz))
    else Some (Ret (n, ih, z, iq, q, jz))
  else Some (Ret (n, ih, z, iq, q, jz)).

(** 375-395: chop off zero terms or split [z]; returns [(jz, q0, iq)] *)
Definition rpl_chop (z jz q0 : Z) (iq : list Z) : option (Z * Z * list Z) :=
  if feq f64 z 0 then
    let* jz := usub 64 jz 1 in
    let* q0 := ssub 32 q0 24 in
    run 25 (fun (s : Z * Z) =>
      let '(jz, q0) := s in
      let* a := arr_get iq jz in
      if a =? 0 then
        let* jz := usub 64 jz 1 in
        let* q0 := ssub 32 q0 24 in
        Some (Cont (jz, q0))
      else Some (Ret (jz, q0, iq))) (jz, q0)
  else
    let* nq := sneg 32 q0 in
    let* z := scalbn f64 z nq in
    if fge f64 z x1p24 then
      let fw := of_int f64 (to_i32 f64 (x1p_24 *: z)) in
      let* iq := arr_set iq jz (to_i32 f64 (z -: (x1p24 *: fw))) in
      let* jz := uadd 64 jz 1 in
      let* q0 := sadd 32 q0 24 in
      let* iq := arr_set iq jz (to_i32 f64 fw) in
      Some (jz, q0, iq)
    else
      let* iq := arr_set iq jz (to_i32 f64 z) in
      Some (jz, q0, iq).

(** 397-402: digits back to floats *)
Definition rpl_back (q iq : list Z) (jz q0 : Z) : option (list Z) :=
  let* fw := scalbn f64 c_one q0 in
  let* r := for_rev 0 jz (fun i (s : list Z * Z) =>
      let '(q, fw) := s in
      let* a := arr_get iq i in
      let* q := arr_set q i (fw *: of_int f64 a) in
      Some (q, fw *: x1p_24)) (q, fw) in
  Some (fst r).

(** 404-413: multiply by pi/2 *)
Definition rpl_fq (q : list Z) (jz jp : Z) : option (list Z) :=
  for_rev 0 jz (fun i fq =>
    let* top := usub 64 jz i in
    let* r := run 25 (fun (s : Z * Z) =>
        let '(k, fw) := s in
        if (k <=? jp) && (k <=? top) then
          let* a := arr_get PIO2 k in
          let* ik := uadd 64 i k in
          let* b := arr_get q ik in
          let* k := uadd 64 k 1 in
          Some (Cont (k, fw +: (a *: b)))
        else Some (Ret fw)) (0, 0) in
    arr_set fq top r) (repeat 0 20).

Definition rpl_sum (fq : list Z) (lo jz : Z) : option Z :=
  for_rev lo jz (fun i fw => let* a := arr_get fq i in Some (fw +: a)) 0.

(** 438-442 and 443-447: one pass of the compensated summation *)
Definition rpl_twosum (fq : list Z) (lo jz : Z) : option (list Z) :=
  for_rev lo jz (fun i fq =>
    let* im := usub 64 i 1 in
    let* a := arr_get fq im in
    let* b := arr_get fq i in
    let fw := a +: b in
    let* fq := arr_set fq i (b +: (a -: fw)) in
    arr_set fq im fw) fq.

(** 415-466: compress [fq] into [y] *)
Definition rpl_out (fq y : list Z) (jz ih prec : Z) : option (list Z) :=
  let sg v := if ih =? 0 then v else fneg f64 v in
  if prec =? 0 then
    let* fw := rpl_sum fq 0 jz in
    arr_set y 0 (sg fw)
  else if (prec =? 1) || (prec =? 2) then
    let* fw := rpl_sum fq 0 jz in
    let* y := arr_set y 0 (sg fw) in
    let* a := arr_get fq 0 in
    let* fw := for_incl 1 jz (fun i fw => let* b := arr_get fq i in Some (fw +: b)) (a -: fw) in
    arr_set y 1 (sg fw)
  else if prec =? 3 then
    let* fq := rpl_twosum fq 1 jz in
    let* fq := rpl_twosum fq 2 jz in
    let* fw := rpl_sum fq 2 jz in
    let* a := arr_get fq 0 in
    let* b := arr_get fq 1 in
    let* y := arr_set y 0 (sg a) in
    let* y := arr_set y 1 (sg b) in
    arr_set y 2 (sg fw)
  else None.

(** 225-468; returns the array [y] and [n & 7].  The loop ['recompute] gets 25 rounds of fuel:
    the arrays have 20 elements and each round moves to a larger index. *)
Definition rem_pio2_large (x y : list Z) (e0 prec : Z) : option (list Z * Z) :=
  if ptr64 && negb (e0 <=? 16360) then None else
  let nx := Z.of_nat (length x) in
  let* jk := arr_get INIT_JK prec in
  let* jx := usub 64 nx 1 in
  let* t := ssub 32 e0 3 in
  let jv := Z.quot t 24 in
  let jv := if jv <? 0 then 0 else jv in
  let* t := sadd 32 jv 1 in
  let* t := smul 32 24 t in
  let* q0 := ssub 32 e0 t in
  let* f := rpl_f jx jv jk in
  let* q := rpl_q x f jx jk in
  let* r := run 25 (rpl_step x jx jv jk q0) (f, q, repeat 0 20, jk) in
  let '(n, ih, z, iq, q, jz) := r in
  let* r := rpl_chop z jz q0 iq in
  let '(jz, q0, iq) := r in
  let* q := rpl_back q iq jz q0 in
  let* fq := rpl_fq q jz jk in
  let* y := rpl_out fq y jz ih prec in
  Some (y, Z.land n 7).
End Large.

(** ** rem_pio2.rs *)
(** rem_pio2.rs 17, 24-38 *)
Definition EPS : Z := 0x3cb0000000000000 (* 2.2204460492503131e-16 *).
Definition TO_INT : Z := 0x3ff8000000000000 (* 1.5 *) /: EPS.
Definition INV_PIO2 : Z := 0x3fe45f306dc9c883 (* 6.36619772367581382433e-01 *).
Definition PIO2_1 : Z := 0x3ff921fb54400000 (* 1.57079632673412561417e+00 *).
Definition PIO2_1T : Z := 0x3dd0b4611a626331 (* 6.07710050650619224932e-11 *).
Definition PIO2_2 : Z := 0x3dd0b4611a600000 (* 6.07710050630396597660e-11 *).
Definition PIO2_2T : Z := 0x3ba3198a2e037073 (* 2.02226624879595063154e-21 *).
Definition PIO2_3 : Z := 0x3ba3198a2e000000 (* 2.02226624871116645580e-21 *).
Definition PIO2_3T : Z := 0x397b839a252049c1 (* 8.47842766036889956997e-32 *).

(** [(ui >> 52) as i32 & 0x7ff] of lines 63-64 and 73 *)
Definition expo (y : Z) : Z := Z.land (to_i 32 (Z.shiftr y 52)) 0x7ff.

(** rem_pio2.rs 51-85, the function [medium] *)
Definition rs_rem_pio2_medium (x ix : Z) : option (Z * Z * Z) :=
  let tmp := (x *: INV_PIO2) +: TO_INT in
  let f_n := tmp -: TO_INT in
  let n := to_i32 f64 f_n in
  let r := x -: (f_n *: PIO2_1) in
  let w := f_n *: PIO2_1T in
  let y0 := r -: w in
  let ey := expo y0 in
  let ex := to_i 32 (Z.shiftr ix 20) in
  let* d := ssub 32 ex ey in
  let* s :=
    (if 16 <? d then
       let t := r in
       let w := f_n *: PIO2_2 in
       let r := t -: w in
       let w := (f_n *: PIO2_2T) -: ((t -: r) -: w) in
       let y0 := r -: w in
       let ey := expo y0 in
       let* d := ssub 32 ex ey in
       if 49 <? d then
         let t := r in
         let w := f_n *: PIO2_3 in
         let r := t -: w in
         let w := (f_n *: PIO2_3T) -: ((t -: r) -: w) in
         let y0 := r -: w in
         Some (r, w, y0)
       else Some (r, w, y0)
     else Some (r, w, y0)) in
  let '(r, w, y0) := s in
  let y1 := (r -: y0) -: w in
  Some (n, y0, y1).

(** The pattern of lines 96-105, 107-116, 127-136 and 143-152: subtract a constant in two parts
    ([p] and [t]), [add] when the sign is negative *)
Definition two_part (x p t : Z) : Z * Z :=
  let z := x -: p in
  let y0 := z -: t in
  (y0, (z -: y0) -: t).
Definition two_part_neg (x p t : Z) : Z * Z :=
  let z := x +: p in
  let y0 := z +: t in
  (y0, (z -: y0) +: t).

(** 168-189: the large arguments *)
Definition rs_rem_pio2_huge (ptr64 : bool) (x ix sign : Z) : option (Z * Z * Z) :=
  let ui := Z.land x (Z.shiftr (unot 64 1) 12) in
  let ui := Z.lor ui (shlu 64 (0x3ff + 23) 52) in
  let z := ui in
  let t0 := of_int f64 (to_i32 f64 z) in
  let z := (z -: t0) *: x1p24 in
  let t1 := of_int f64 (to_i32 f64 z) in
  let z := (z -: t1) *: x1p24 in
  let tx := [t0; t1; z] in
  let i := if feq f64 z 0 then (if feq f64 t1 0 then 0 else 1) else 2 in
  let* e0 := ssub 32 (Z.shiftr (to_i 32 ix) 20) (0x3ff + 23) in
  let* r := rem_pio2_large ptr64 (firstn (Z.to_nat (i + 1)) tx) (repeat 0 3) e0 1 in
  let '(ty, n) := r in
  let* a := arr_get ty 0 in
  let* b := arr_get ty 1 in
  if negb (sign =? 0) then
    let* n := sneg 32 n in
    Some (n, fneg f64 a, fneg f64 b)
  else Some (n, a, b).

(** rem_pio2.rs 45-190 *)
Definition rs_rem_pio2_gen (ptr64 : bool) (x : Z) : option (Z * Z * Z) :=
  let sign := to_i 32 (Z.shiftr x 63) in
  let ix := Z.land (to_u 32 (Z.shiftr x 32)) 0x7fffffff in
  let out n (p : Z * Z) := Some (n, fst p, snd p) in
  let two c := if sign =? 0
    then out c (two_part x (if c =? 1 then PIO2_1 else of_int f64 c *: PIO2_1)
                           (if c =? 1 then PIO2_1T else of_int f64 c *: PIO2_1T))
    else out (- c) (two_part_neg x (if c =? 1 then PIO2_1 else of_int f64 c *: PIO2_1)
                               (if c =? 1 then PIO2_1T else of_int f64 c *: PIO2_1T)) in
  if ix <=? 0x400f6a7a then
    if Z.land ix 0xfffff =? 0x921fb then rs_rem_pio2_medium x ix
    else if ix <=? 0x4002d97c then two 1
    else two 2
  else if ix <=? 0x401c463b then
    if ix <=? 0x4015fdbc then
      if ix =? 0x4012d97c then rs_rem_pio2_medium x ix else two 3
    else
      if ix =? 0x401921fb then rs_rem_pio2_medium x ix else two 4
  else if ix <? 0x413921fb then rs_rem_pio2_medium x ix
  else if 0x7ff00000 <=? ix then
    let y0 := x -: x in
    Some (0, y0, y0)
  else rs_rem_pio2_huge ptr64 x ix sign.

Definition rs_rem_pio2 (x : Z) : option (Z * Z * Z) := rs_rem_pio2_gen true x.

(** ** rem_pio2f.rs *)
(** rem_pio2f.rs 21-28 *)
Definition TOINT_f : Z := 0x3ff8000000000000 /: EPS.
Definition PIO2_1f : Z := 0x3ff921fb50000000 (* 1.57079631090164184570e+00 *).
Definition PIO2_1Tf : Z := 0x3e5110b4611a6263 (* 1.58932547735281966916e-08 *).

(** rem_pio2f.rs 35-68 *)
Definition rs_rem_pio2f_gen (ptr64 : bool) (x : Z) : option (Z * Z) :=
  let x64 := fcvt f32 f64 x in
  let ix := Z.land x 0x7fffffff in
  if ix <? 0x4dc90fdb then
    let tmp := (x64 *: INV_PIO2) +: TOINT_f in
    let f_n := tmp -: TOINT_f in
    Some (to_i32 f64 f_n, (x64 -: (f_n *: PIO2_1f)) -: (f_n *: PIO2_1Tf))
  else if 0x7f800000 <=? ix then Some (0, x64 -: x64)
  else
    let sign := negb (Z.shiftr x 31 =? 0) in
    let* d := usub 32 (Z.shiftr ix 23) (0x7f + 23) in
    let e0 := to_i 32 d in
    let* b := usub 32 ix (to_u 32 (shli 32 e0 23)) in
    let tx := [fcvt f32 f64 b] in
    let* r := rem_pio2_large ptr64 tx [0] e0 0 in
    let '(ty, n) := r in
    let* a := arr_get ty 0 in
    if sign then
      let* n := sneg 32 n in
      Some (n, fneg f64 a)
    else Some (n, a).

Definition rs_rem_pio2f (x : Z) : option (Z * Z) := rs_rem_pio2f_gen true x.
