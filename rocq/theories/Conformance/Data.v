(** * Recorded data of the repository, as byte strings (generated from /repo/mybin-core/data) *)
From Coq Require Import Strings.String Strings.Ascii.
From Coq Require Import List NArith Bool.
From Verif Require Import Model.Base.
Import ListNotations.
Open Scope N_scope.

Definition hex_digit (a : ascii) : N :=
  let n := N_of_ascii a in if n <? 58 then n - 48 else n - 87.
Fixpoint hex (s : string) : bytes :=
  match s with
  | String a (String b s) => n2b (16 * hex_digit a + hex_digit b) :: hex s
  | _ => []
  end.

(** mybin-core/data/mysql-bin.5.5.50.LoadEvent *)
Definition log_5_5_50_LoadEvent : bytes := Eval vm_compute in hex (
"fe62696ed7891d5f0f01000000670000006b00000001000400352e352e35302d6c6f6700000000000000000000000000000000000000000000000000" ++
"0000000000000000000000000000000000000013380d0008001200040404041200005400041a0800000008080802002d8a1d5f020100000048000000" ++
"b3000000080002000000000000000800001a00000000000001000000000000000006037374640408000800080062696e746573743200424547494e2d" ++
"8a1d5f130100000035000000e8000000000022000000000001000862696e74657374320008746573746c6f6164000303030300072d8a1d5f17010000" ++
"00370000001f0100000000220000000000010003fff8070000000800000009000000f80a0000000b0000000c0000002d8a1d5f10010000001b000000" ++
"3a01000000001c00000000000000")%string.
(** mybin-core/data/mysql-bin.5.5.50.RowsEventV1 *)
Definition log_5_5_50_RowsEventV1 : bytes := Eval vm_compute in hex (
"fe62696ebe481d5f0f01000000670000006b00000001000400352e352e35302d6c6f6700000000000000000000000000000000000000000000000000" ++
"0000000000000000000000000000000000000013380d0008001200040404041200005400041a08000000080808020026491d5f020100000048000000" ++
"b3000000080001000000000000000800001a00000000000001000000000000000006037374640421002100080062696e746573743200424547494edd" ++
"481d5f130100000033000000e6000000000021000000000001000862696e7465737432000574657374320002030f02320002dd481d5f170100000033" ++
"000000190100000000210000000000010002fffc010000000568656c6c6ffc0200000005776f726c6409491d5f1301000000330000004c0100000000" ++
"21000000000001000862696e7465737432000574657374320002030f0232000209491d5f1801000000330000007f0100000000210000000000010002" ++
"fffffc0200000005776f726c64fc02000000046a6176611d491d5f130100000033000000b2010000000021000000000001000862696e746573743200" ++
"0574657374320002030f023200021d491d5f190100000027000000d90100000000210000000000010002fffc02000000046a61766126491d5f100100" ++
"00001b000000f401000000000d00000000000000")%string.
(** mybin-core/data/mysql-bin.5.5.50.StartEvent *)
Definition log_5_5_50_StartEvent : bytes := Eval vm_compute in hex (
"fe62696e1dab1b5f0f01000000670000006b00000001000400352e352e35302d6c6f6700000000000000000000000000000000000000000000000000" ++
"0000000000000000000000000000001dab1b5f13380d0008001200040404041200005400041a080000000808080200")%string.
(** mybin-core/data/mysql-bin.5.7.30.BeginLoadQueryEvent *)
Definition log_5_7_30_BeginLoadQueryEvent : bytes := Eval vm_compute in hex (
"fe62696efa8f1d5f0f01000000770000007b00000001000400352e372e33302d6c6f6700000000000000000000000000000000000000000000000000" ++
"0000000000000000000000000000000000000013380d0008001200040404041200005f00041a08000000080808020000000a0a0a2a2a001234000197" ++
"f6501dfa8f1d5f23010000001f0000009a00000080000000000000000000cb6348fe06901d5f220100000041000000db000000000001000000000000" ++
"00000000000000000000000000000000000002000000000000000001000000000000005e0d913b06901d5f0201000000570000003201000008000200" ++
"00000000000008000025000000000000012000a055000000000603737464040800080008000c0162696e74657374310062696e746573743100424547" ++
"494e2535c4cd06901d5f11010000003a0000006c0100000000010000003e312c322c330a3e342c352c360a3e372c382c390a3e31302c31312c31320a" ++
"17e31b5e06901d5f12010000002a01000096020000000002000000000000000800002500010000000900000026000000020000000000012000a05500" ++
"0000000603737464040800080008000c0162696e74657374310062696e7465737431004c4f4144204441544120494e46494c4520272f752e74787427" ++
"205245504c41434520494e544f205441424c452060746573746c6f616460204649454c4453205445524d494e4154454420425920272c27204f505449" ++
"4f4e414c4c592020454e434c4f53454420425920272227204553434150454420425920275c5c27204c494e4553205445524d494e4154454420425920" ++
"275c6e27205354415254494e4720425920273e272049474e4f52452032204c494e455320202860696431602c2060696432602c206069643360298cc1" ++
"4a7706901d5f10010000001f000000b502000000000a00000000000000220a205d")%string.
(** mybin-core/data/mysql-bin.5.7.30.Enum *)
Definition log_5_7_30_Enum : bytes := Eval vm_compute in hex (
"fe62696ec0c99f5f0f01000000770000007b00000001000400352e372e33302d6c6f6700000000000000000000000000000000000000000000000000" ++
"0000000000000000000000000000000000000013380d0008001200040404041200005f00041a08000000080808020000000a0a0a2a2a0012340001a3" ++
"387bcdc0c99f5f230100000047000000c2000000800001000000000000006496a1b91caf11ebba160242ac1100020100000000000000010000000000" ++
"00003b00000000000000e0517d1e09ca9f5f210100000041000000030100000000006496a1b91caf11ebba160242ac1100023b000000000000000200" ++
"00000000000000010000000000000082ac41e609ca9f5f02010000004c0000004f01000008005e000000000000000800001a000000000000012000a0" ++
"550000000006037374640408000800080062696e746573743100424547494ece93d4b109ca9f5f130100000039000000880100000000790000000000" ++
"01000862696e74657374310008656e756d746573740001fe02f701013d652f2b09ca9f5f1e010000002d000000b50100000000790000000000010002" ++
"0001fffe01fe02fe03fe04fe052a97f94e09ca9f5f10010000001f000000d401000000007d02000000000000795cc2c3")%string.
(** mybin-core/data/mysql-bin.5.7.30.GtidEvent *)
Definition log_5_7_30_GtidEvent : bytes := Eval vm_compute in hex (
"fe62696e8929255f0f01000000770000007b00000001000400352e372e33302d6c6f6700000000000000000000000000000000000000000000000000" ++
"0000000000000000000000000000000000000013380d0008001200040404041200005f00041a08000000080808020000000a0a0a2a2a001234000164" ++
"f9e3218929255f230100000047000000c2000000800001000000000000004c8c25cfd3cb11eaa2990242ac1100020100000000000000010000000000" ++
"000009000000000000000fba3a289229255f210100000041000000030100000000014c8c25cfd3cb11eaa2990242ac11000209000000000000000200" ++
"000000000000000100000000000000d8494b609229255f02010000006d000000700100000000020000000000000008000025000000000000012000a0" ++
"55000000000603737464042100210008000c0162696e74657374310062696e746573743100637265617465207461626c652074657374322028696420" ++
"696e74294e4c0724")%string.
(** mybin-core/data/mysql-bin.5.7.30.Null *)
Definition log_5_7_30_Null : bytes := Eval vm_compute in hex (
"fe62696eba8ba25f0f01000000770000007b00000001000400352e372e33302d6c6f6700000000000000000000000000000000000000000000000000" ++
"0000000000000000000000000000000000000013380d0008001200040404041200005f00041a08000000080808020000000a0a0a2a2a0012340001fd" ++
"05c3cbba8ba25f230100000047000000c2000000800001000000000000006496a1b91caf11ebba160242ac1100020100000000000000010000000000" ++
"0000b900000000000000cae5ef2ee68ba25f210100000041000000030100000000006496a1b91caf11ebba160242ac110002b9000000000000000200" ++
"000000000000000100000000000000d5f48b9ae68ba25f02010000004c0000004f010000080056020000000000000800001a000000000000012000a0" ++
"550000000006037374640408000800080062696e746573743100424547494ec3426599e68ba25f1301000000400000008f0100000000980000000000" ++
"01000862696e746573743100086e756c6c74657374000903030303030303030300ff013407b804e68ba25f1e0100000036000000c501000000009800" ++
"000000000100020009ffffaaff010000000300000005000000070000002ac1fbcbe68ba25f10010000001f000000e401000000005214000000000000" ++
"5f1da465")%string.
(** mybin-core/data/mysql-bin.5.7.30.Number *)
Definition log_5_7_30_Number : bytes := Eval vm_compute in hex (
"fe62696e6f23a15f0f01000000770000007b00000001000400352e372e33302d6c6f6700000000000000000000000000000000000000000000000000" ++
"0000000000000000000000000000000000000013380d0008001200040404041200005f00041a08000000080808020000000a0a0a2a2a00123400017a" ++
"e4fda46f23a15f230100000047000000c2000000800001000000000000006496a1b91caf11ebba160242ac1100020100000000000000010000000000" ++
"0000b700000000000000592e5ca47123a15f210100000041000000030100000000006496a1b91caf11ebba160242ac110002b7000000000000000200" ++
"0000000000000001000000000000002b242dfa7123a15f02010000004c0000004f010000080055020000000000000800001a000000000000012000a0" ++
"550000000006037374640408000800080062696e746573743100424547494e2c4c9d607123a15f130100000043000000920100000000970000000000" ++
"01000862696e746573743100076e756d74657374000bf601010202030308080909020a00ff078dc380e87123a15f1e010000004f000000e101000000" ++
"00970000000000010002000bffff00f880000f42407fffff3fff7fffffff3fffffff7f01f05a2b17ffffffff0fa5d4e8000000000004fffffffd70dc" ++
"987123a15f10010000001f0000000002000000003f14000000000000ca75c12a")%string.
(** mybin-core/data/mysql-bin.5.7.30.QueryEvent *)
Definition log_5_7_30_QueryEvent : bytes := Eval vm_compute in hex (
"fe62696eccc41b5f0f01000000770000007b00000001000400352e372e33302d6c6f6700000000000000000000000000000000000000000000000000" ++
"0000000000000000000000000000000000000013380d0008001200040404041200005f00041a08000000080808020000000a0a0a2a2a0012340001ae" ++
"ed4035ccc41b5f23010000001f0000009a000000800000000000000000003208f3a8d2c41b5f220100000041000000db000000000001000000000000" ++
"00000000000000000000000000000000000002000000000000000001000000000000006d2c1dc1d2c41b5f02010000006a0000004501000008000300" ++
"00000000000008000025000000000000012000a055000000000603737464040800080008000c0162696e74657374310062696e746573743100637265" ++
"6174652064617461626173652062696e746573743110cc52f0")%string.
(** mybin-core/data/mysql-bin.5.7.30.RandEvent *)
Definition log_5_7_30_RandEvent : bytes := Eval vm_compute in hex (
"fe62696e0fd9245f0f01000000770000007b00000001000400352e372e33302d6c6f6700000000000000000000000000000000000000000000000000" ++
"0000000000000000000000000000000000000013380d0008001200040404041200005f00041a08000000080808020000000a0a0a2a2a0012340001a2" ++
"f1c6590fd9245f23010000001f0000009a00000080000000000000000000af9e621f34d9245f220100000041000000db000000000001000000000000" ++
"0000000000000000000000000000000000000200000000000000000100000000000000278d6f7d34d9245f0201000000570000003201000008000200" ++
"00000000000008000025000000000000012000a055000000000603737464042100210008000c0162696e74657374330062696e746573743300424547" ++
"494ef42075a234d9245f0501000000200000005201000000000201000000000000009f6210cd34d9245f0d010000002700000079010000000060d862" ++
"1d000000007cd37e2a00000000bf12d7cf34d9245f0201000000930000000c0200000000020000000000000008000025000000000000012000a05500" ++
"0000000603737464042100210008000c0162696e74657374330062696e746573743300696e7365727420696e746f207465737432202876616c756529" ++
"2076616c7565732028636173742872616e642829202a2031303020617320756e7369676e656429298f899f0134d9245f10010000001f0000002b0200" ++
"00000011000000000000002fec797a")%string.
(** mybin-core/data/mysql-bin.5.7.30.RotateEvent *)
Definition log_5_7_30_RotateEvent : bytes := Eval vm_compute in hex (
"fe62696ea6c41b5f0f01000000770000007b00000000000400352e372e33302d6c6f6700000000000000000000000000000000000000000000000000" ++
"000000000000000000000000000000a6c41b5f13380d0008001200040404041200005f00041a08000000080808020000000a0a0a2a2a00123400013c" ++
"0098e3a6c41b5f23010000001f0000009a00000080000000000000000000851523a9ccc41b5f04010000002f000000c9000000000004000000000000" ++
"006d7973716c2d62696e2e303030303034007b1704")%string.
(** mybin-core/data/mysql-bin.5.7.30.RowsEventV2 *)
Definition log_5_7_30_RowsEventV2 : bytes := Eval vm_compute in hex (
"fe62696ee73b1d5f0f01000000770000007b00000001000400352e372e33302d6c6f6700000000000000000000000000000000000000000000000000" ++
"0000000000000000000000000000000000000013380d0008001200040404041200005f00041a08000000080808020000000a0a0a2a2a001234000144" ++
"1a49cee73b1d5f23010000001f0000009a0000008000000000000000000000dba530063c1d5f220100000041000000db000000000000000000000000" ++
"00000000000000000000000000000000000002000000000000000001000000000000009df57408f43b1d5f02010000004c0000002701000008000200" ++
"0000000000000800001a000000000000012000a0550000000006037374640421002100080062696e746573743100424547494e0d96e626f43b1d5f13" ++
"01000000370000005e01000000006c000000000001000862696e7465737431000574657374310002030f0232000286f41393f43b1d5f1e0100000039" ++
"0000009701000000006c00000000000100020002fffc010000000568656c6c6ffc0200000005776f726c6435223c6efa3b1d5f130100000037000000" ++
"ce01000000006c000000000001000862696e7465737431000574657374310002030f02320002302f36bdfa3b1d5f1f01000000390000000702000000" ++
"006c00000000000100020002fffffc0200000005776f726c64fc02000000046a617661f0b3c6f9013c1d5f1301000000370000003e02000000006c00" ++
"0000000001000862696e7465737431000574657374310002030f023200023b96007a013c1d5f20010000002d0000006b02000000006c000000000001" ++
"00020002fffc02000000046a617661cf1968d0063c1d5f10010000001f0000008a02000000001800000000000000e20f513c")%string.
(** mybin-core/data/mysql-bin.5.7.30.StartEvent *)
Definition log_5_7_30_StartEvent : bytes := Eval vm_compute in hex (
"fe62696ea77f175f0f01000000770000007b00000000000400352e372e33302d6c6f6700000000000000000000000000000000000000000000000000" ++
"000000000000000000000000000000a77f175f13380d0008001200040404041200005f00041a08000000080808020000000a0a0a2a2a0012340001e0" ++
"4779baa77f175f23010000001f0000009a00000080000000000000000000023425c0a87f175f030100000017000000b10000000000a8d1cdb9")%string.
(** mybin-core/data/mysql-bin.5.7.30.StartEventNoChecksum *)
Definition log_5_7_30_StartEventNoChecksum : bytes := Eval vm_compute in hex (
"fe62696e723e205f0f01000000770000007b00000000000400352e372e33302d6c6f6700000000000000000000000000000000000000000000000000" ++
"000000000000000000000000000000723e205f13380d0008001200040404041200005f00041a08000000080808020000000a0a0a2a2a0012340000f0" ++
"8af974723e205f23010000001b0000009600000080000000000000000000743e205f030100000013000000a90000000000")%string.
(** mybin-core/data/mysql-bin.5.7.30.Time *)
Definition log_5_7_30_Time : bytes := Eval vm_compute in hex (
"fe62696e46fa905f0f01000000770000007b00000001000400352e372e33302d6c6f6700000000000000000000000000000000000000000000000000" ++
"0000000000000000000000000000000000000013380d0008001200040404041200005f00041a08000000080808020000000a0a0a2a2a0012340001ab" ++
"d9766b46fa905f230100000047000000c200000080000100000000000000727a1a41140111eb85600242ac1100020100000000000000010000000000" ++
"000076000000000000002dbe882d53fa905f21010000004100000003010000000000727a1a41140111eb85600242ac11000276000000000000000200" ++
"000000000000000100000000000000809f03d153fa905f02010000004c0000004f0100000800be000000000000000800001a000000000000012000a0" ++
"550000000006037374640421002100080062696e746573743100424547494ede66b8c253fa905f130100000049000000980100000000870000000000" ++
"01000862696e746573743100087465737474696d65000c12031203120313031303130306000306000306ff0faa25a4f253fa905f1e01000000600000" ++
"00f80100000000870000000000010002000cffff00f099a54210830100000099a542108301c20200000099a542108300b00b03000000801083040000" ++
"0080108301c2050000007fef7cff4ff506000000e2f8a76a53fa905f10010000001f0000001702000000004102000000000000d32f5036")%string.
(** mybin-core/data/mysql-bin.5.7.30.Timestamp *)
Definition log_5_7_30_Timestamp : bytes := Eval vm_compute in hex (
"fe62696e91879f5f0f01000000770000007b00000001000400352e372e33302d6c6f6700000000000000000000000000000000000000000000000000" ++
"0000000000000000000000000000000000000013380d0008001200040404041200005f00041a08000000080808020000000a0a0a2a2a00123400018e" ++
"f344b991879f5f230100000047000000c2000000800001000000000000006496a1b91caf11ebba160242ac1100020100000000000000010000000000" ++
"0000220000000000000023c3ad40a2879f5f210100000041000000030100000000006496a1b91caf11ebba160242ac11000222000000000000000200" ++
"000000000000000100000000000000407e5103a2879f5f0201000000540000005701000008001a0000000000000008000022000000000000012000a0" ++
"5500000000060373746404080008000800050653595354454d62696e746573743100424547494eb35d231ba2879f5f13010000003d00000094010000" ++
"000071000000000001000862696e7465737431000d74696d657374616d70746573740001110100005441a8a8a2879f5f1e0100000028000000bc0100" ++
"0000007100000000000100020001fffe5f9f87a20382128ba2879f5f10010000001f000000db0100000000020100000000000070f67dde")%string.
(** mybin-core/data/mysql-bin.5.7.30.UserVarEvent *)
Definition log_5_7_30_UserVarEvent : bytes := Eval vm_compute in hex (
"fe62696e25e8245f0f01000000770000007b00000001000400352e372e33302d6c6f6700000000000000000000000000000000000000000000000000" ++
"0000000000000000000000000000000000000013380d0008001200040404041200005f00041a08000000080808020000000a0a0a2a2a001234000123" ++
"6da89625e8245f23010000001f0000009a0000008000000000000000000053658b7e5ee8245f220100000041000000db000000000001000000000000" ++
"00000000000000000000000000000000000002000000000000000001000000000000005b3e4a295ee8245f0201000000570000003201000008000200" ++
"00000000000008000025000000000000012000a055000000000603737464042100210008000c0162696e74657374330062696e746573743300424547" ++
"494e111c64bf5ee8245f0e0100000032000000640100000000080000006d797661727374720000210000000500000068656c6c6f06ddbc285ee8245f" ++
"0e0100000032000000960100000000090000006d797661727265616c00042100000004000000030281170f450b275ee8245f0e0100000036000000cc" ++
"0100000000080000006d79766172696e74000221000000080000006400000000000000006ca149715ee8245f0e0100000033000000ff010000000009" ++
"0000006d79766172626c6f6200003f00000005000000776f726c647a321ef75ee8245f0e010000003c0000003b02000000000c0000006d7976617264" ++
"6563696d616c0004210000000b00000012028098967f3b9ac9ff63ff517b865ee8245f0201000000d10000000c030000000002000000000000000800" ++
"0025000000000000012000a055000000000603737464042100210008000c0162696e74657374330062696e746573743300696e7365727420696e746f" ++
"20746573743320286d797374722c206d797265616c2c206d79696e742c206d79626c6f622c206d79646563696d616c292076616c75657328406d7976" ++
"61727374722c20406d797661727265616c2c20406d79766172696e742c20406d79766172626c6f622c20406d79766172646563696d616c294714d851" ++
"5ee8245f10010000001f0000002b03000000004400000000000000e1986379")%string.
(** mybin-core/data/mysql-bin.5.7.30.Year *)
Definition log_5_7_30_Year : bytes := Eval vm_compute in hex (
"fe62696e906f9f5f0f01000000770000007b00000001000400352e372e33302d6c6f6700000000000000000000000000000000000000000000000000" ++
"0000000000000000000000000000000000000013380d0008001200040404041200005f00041a08000000080808020000000a0a0a2a2a001234000131" ++
"ce4e91906f9f5f230100000047000000c2000000800001000000000000006496a1b91caf11ebba160242ac1100020100000000000000010000000000" ++
"00001c0000000000000009b2fb79c76f9f5f210100000041000000030100000000006496a1b91caf11ebba160242ac1100021c000000000000000200" ++
"000000000000000100000000000000a42f4e8ec76f9f5f02010000004c0000004f010000080009000000000000000800001a000000000000012000a0" ++
"550000000006037374640408000800080062696e746573743100424547494e1685a104c76f9f5f1301000000380000008701000000006f0000000000" ++
"01000862696e7465737431000979656172746573743200010d000104e6d9ebc76f9f5f1e0100000031000000b801000000006f000000000001000200" ++
"01fffe00fe65fea9fe46fe63fe01fefff0311855c76f9f5f10010000001f000000d701000000006200000000000000c07370df")%string.
(** mybin-core/data/packet.dat *)
Definition packet_dat : bytes := Eval vm_compute in hex (
"4e0000000a352e372e33302d6c6f67000c000000064464550e117a2300ffff080200ffc1150000000000000000000031534571264c0c39792e303000" ++
"6d7973716c5f6e61746976655f70617373776f726400")%string.
