(* make_nvp on the tables made from nvp.nfa: the automaton of the description is followed by the table of L_Nvp. *)
From Verif Require Import Base M_Charclass M_Dfasyn M_Compdfa M_Parse M_Blocks M_Files M_Tables S_Dfasyn L_Dfasyn2 L_Tie2 L_Tie3 L_Tie4 L_Room L_Sim.
From Verif Require M_Nvp L_Nvp.

Definition nv : list decl := Eval vm_compute in match read_description nvp_text with Ok ds => ds | Err _ => [] end.
Lemma nv_read : read_description nvp_text = Ok nv.
Proof. vm_compute. reflexivity. Qed.
Definition opt (s : symbol) : option N := match s with Tok _ => None | Chr c => Some (N.of_nat c) end.
Definition ncls (s : symbol) : nat := L_Nvp.class_of (opt s).
Definition nnext (i k : nat) : nat := nth k (nth i L_Nvp.table []) 60.
Definition nshown (i : nat) : list (list bytes) :=
  [match L_Nvp.cop i with M_Nvp.COPY_NOWHERE => [] | k => [copier_name k] end; match L_Nvp.act i with M_Nvp.GOT_NOTHING => [] | a => [action_name a] end; []].
Definition nspec : list (list bytes * bytes) :=
  [(map copier_name [M_Nvp.COPY_TO_NAME; M_Nvp.COPY_TO_MINOR; M_Nvp.COPY_TO_VALUE], copier_name M_Nvp.COPY_NOWHERE);
   (map action_name [M_Nvp.GOT_NAMEVALUE; M_Nvp.GOT_NAMEVALUE_CONT; M_Nvp.GOT_NAMEVALUE_CSET; M_Nvp.GOT_NAMEVALUE_CCONT; M_Nvp.GOT_NAME; M_Nvp.GOT_NAME_TRAILING_SPACE; M_Nvp.GOT_MAJORMINOR; M_Nvp.GOT_TERMINATOR], action_name M_Nvp.GOT_NOTHING);
   ([], bs "0")].
(* The sets of states that come up, each with the state of the table that follows it. *)
Definition nv_pairs : list (list N * nat) := (
[([16; 0; 0; 201326592; 0; 0; 66304; 4576; 0; 0; 0; 12; 0; 16973824; 16900096; 0; 0; 0; 49152; 0; 805306368; 503316496; 0], 21%nat);
 ([0; 0; 0; 26368; 0; 0; 0; 0; 0; 0; 6750208; 0; 0; 0; 0; 0; 0; 1879048192; 6; 0; 0; 0; 0], 22%nat);
 ([16; 0; 0; 196608; 0; 0; 66304; 4576; 0; 0; 50331648; 0; 0; 16973824; 16900096; 0; 0; 0; 48; 0; 805306368; 503316496; 0], 38%nat);
 ([16; 0; 0; 229378; 0; 0; 66304; 4576; 0; 0; 58720768; 0; 0; 16973824; 16900096; 0; 0; 2097152; 56; 0; 805306368; 503316496; 0], 31%nat);
 ([0; 0; 0; 6144; 0; 0; 0; 0; 0; 0; 1572864; 0; 0; 0; 0; 0; 0; 2147483648; 1; 0; 0; 0; 0], 32%nat);
 ([0; 0; 0; 18304; 0; 0; 0; 0; 0; 0; 4685824; 0; 0; 0; 0; 0; 0; 2013265920; 4; 0; 0; 0; 0], 22%nat);
 ([0; 0; 0; 96; 0; 0; 0; 0; 0; 0; 24576; 0; 0; 0; 0; 0; 0; 100663296; 0; 0; 0; 0; 0], 23%nat);
 ([0; 0; 0; 18176; 0; 0; 0; 0; 0; 0; 4653056; 0; 0; 0; 0; 0; 0; 1879048192; 4; 0; 0; 0; 0], 22%nat);
 ([16; 0; 0; 0; 0; 0; 66304; 4576; 0; 0; 0; 0; 0; 16973824; 16900096; 0; 0; 0; 0; 0; 805306368; 503316496; 0], 11%nat);
 ([0; 0; 3221225472; 4032561157; 0; 0; 0; 0; 0; 0; 1543505344; 240; 0; 0; 0; 0; 0; 6029312; 984512; 0; 0; 0; 0], 5%nat);
 ([0; 0; 0; 24; 0; 0; 0; 0; 0; 0; 6144; 0; 0; 0; 0; 0; 0; 25165824; 0; 0; 0; 0; 0], 13%nat);
 ([16; 0; 0; 262144000; 0; 0; 66304; 4576; 0; 0; 2684354560; 15; 0; 16973824; 16900096; 0; 0; 0; 64000; 0; 805306368; 503316496; 0], 12%nat);
 ([96472046; 771763712; 47104; 0; 0; 0; 100794368; 3222007296; 3014661; 12058670; 0; 0; 0; 33554432; 3204186118; 3758119936; 2147672066; 11; 0; 0; 0; 24608; 0], 10%nat); ([0; 0; 0; 0; 0; 0; 0; 448; 0; 0; 0; 0; 0; 0; 114688; 0; 0; 0; 0; 0; 0; 469762048; 0], 20%nat);
 ([16; 0; 0; 0; 0; 0; 0; 4607; 0; 0; 0; 0; 0; 0; 16908032; 0; 0; 0; 0; 0; 0; 535822336; 0], 19%nat);
 ([16; 0; 0; 0; 0; 402653184; 77824; 4576; 0; 0; 0; 0; 0; 19922968; 16900096; 0; 0; 0; 0; 0; 98304; 503316499; 0], 51%nat);
 ([16; 0; 0; 0; 0; 524288000; 77824; 4576; 0; 0; 0; 0; 1073741824; 19922975; 16900096; 0; 0; 0; 0; 0; 128000; 503316499; 0], 48%nat);
 ([0; 0; 0; 0; 0; 10485760; 0; 0; 0; 0; 0; 0; 2684354560; 0; 0; 0; 0; 0; 0; 0; 2560; 0; 0], 43%nat);
 ([0; 0; 0; 0; 0; 1048576; 0; 0; 0; 0; 0; 0; 268435456; 0; 0; 0; 0; 0; 0; 0; 256; 0; 0], 36%nat);
 ([16; 0; 0; 0; 0; 3072; 77824; 4576; 0; 0; 0; 0; 786432; 19922944; 16900096; 0; 0; 0; 0; 3221225472; 0; 503316499; 0], 49%nat);
 ([16; 0; 0; 0; 0; 4000; 77824; 4576; 0; 0; 0; 0; 1024000; 19922944; 16900096; 0; 0; 0; 0; 4194304000; 0; 503316499; 0], 44%nat);
 ([0; 0; 0; 0; 0; 80; 0; 0; 0; 0; 0; 0; 20480; 0; 0; 0; 0; 0; 0; 83886080; 0; 0; 0], 37%nat);
 ([0; 0; 0; 0; 0; 94215; 0; 0; 0; 0; 0; 0; 24119040; 0; 0; 0; 0; 0; 0; 7340032; 23; 0; 0], 17%nat);
 ([0; 0; 0; 0; 0; 8; 0; 0; 0; 0; 0; 0; 2048; 0; 0; 0; 0; 0; 0; 8388608; 0; 0; 0], 30%nat);
 ([0; 0; 0; 0; 0; 950272; 0; 0; 0; 0; 0; 0; 243269632; 0; 0; 0; 0; 0; 0; 0; 232; 0; 0], 29%nat);
 ([16; 0; 0; 0; 0; 0; 114880; 4576; 0; 0; 0; 0; 0; 29409280; 16900096; 0; 0; 0; 0; 0; 201326592; 503316508; 0], 45%nat);
 ([0; 0; 0; 0; 0; 3221225472; 5; 0; 0; 0; 0; 0; 0; 1472; 0; 0; 0; 0; 0; 0; 6029312; 0; 0], 33%nat);
 ([16; 0; 0; 0; 0; 0; 114938; 4576; 0; 0; 0; 0; 0; 29424128; 16900096; 0; 0; 0; 0; 0; 262144000; 503316508; 0], 39%nat);
 ([0; 0; 469762048; 0; 0; 0; 0; 0; 0; 0; 28; 0; 0; 0; 0; 0; 0; 114688; 0; 0; 0; 0; 0], 24%nat);
 ([0; 0; 0; 0; 0; 3758096384; 5; 0; 0; 0; 0; 0; 0; 1504; 0; 0; 0; 0; 0; 0; 6160384; 0; 0], 33%nat);
 ([0; 0; 503316480; 0; 0; 0; 0; 0; 0; 0; 30; 0; 0; 0; 0; 0; 0; 122880; 0; 0; 0; 0; 0], 24%nat);
 ([16; 0; 0; 0; 1610612736; 0; 68608; 4576; 0; 0; 0; 0; 96; 17563648; 16900096; 0; 0; 0; 0; 393216; 3221225472; 503316496; 0], 40%nat);
 ([0; 0; 0; 0; 210944; 0; 0; 0; 0; 0; 0; 54001664; 0; 0; 0; 0; 0; 0; 2147483648; 51; 0; 0; 0], 41%nat);
 ([16; 0; 0; 0; 1572864; 0; 68608; 4576; 0; 0; 0; 402653184; 0; 17563648; 16900096; 0; 0; 0; 0; 384; 3221225472; 503316496; 0], 50%nat);
 ([16; 0; 0; 0; 1835024; 0; 68608; 4576; 0; 0; 0; 469766144; 0; 17563648; 16900096; 0; 0; 0; 16777216; 448; 3221225472; 503316496; 0], 46%nat);
 ([0; 0; 0; 0; 49152; 0; 0; 0; 0; 0; 0; 12582912; 0; 0; 0; 0; 0; 0; 0; 12; 0; 0; 0], 47%nat);
 ([0; 0; 0; 0; 146432; 0; 0; 0; 0; 0; 0; 37486592; 0; 0; 0; 0; 0; 0; 3221225472; 35; 0; 0; 0], 41%nat);
 ([0; 0; 0; 0; 768; 0; 0; 0; 0; 0; 0; 196608; 0; 0; 0; 0; 0; 0; 805306368; 0; 0; 0; 0], 42%nat);
 ([0; 0; 0; 0; 145408; 0; 0; 0; 0; 0; 0; 37224448; 0; 0; 0; 0; 0; 0; 2147483648; 35; 0; 0; 0], 41%nat);
 ([0; 0; 0; 0; 48234542; 0; 0; 0; 0; 0; 0; 3758108160; 2; 0; 0; 0; 0; 0; 48234496; 11776; 0; 0; 0], 27%nat);
 ([0; 0; 0; 0; 192; 0; 0; 0; 0; 0; 0; 49152; 0; 0; 0; 0; 0; 0; 201326592; 0; 0; 0; 0], 35%nat);
 ([16; 0; 0; 0; 2097152000; 0; 68608; 4576; 0; 0; 0; 0; 125; 17563648; 16900096; 0; 0; 0; 0; 512000; 3221225472; 503316496; 0], 34%nat);
 ([0; 0; 1792; 0; 0; 0; 0; 0; 0; 458752; 0; 0; 0; 0; 0; 0; 1879048192; 0; 0; 0; 0; 0; 0], 28%nat);
 ([0; 448; 0; 0; 0; 0; 0; 0; 114688; 0; 0; 0; 0; 0; 0; 469762048; 0; 0; 0; 0; 0; 0; 0], 26%nat);
 ([0; 0; 1920; 0; 0; 0; 0; 0; 0; 491520; 0; 0; 0; 0; 0; 0; 2013265920; 0; 0; 0; 0; 0; 0], 28%nat);
 ([0; 504; 0; 0; 0; 0; 0; 0; 129024; 0; 0; 0; 0; 0; 0; 528482304; 0; 0; 0; 0; 0; 0; 0], 25%nat);
 ([0; 0; 0; 0; 48234543; 0; 0; 0; 0; 0; 0; 3758108416; 2; 0; 0; 0; 0; 0; 49283072; 11776; 0; 0; 0], 27%nat);
 ([0; 29360128; 0; 0; 0; 0; 0; 0; 3221225472; 1; 0; 0; 0; 0; 0; 0; 7168; 0; 0; 0; 0; 0; 0], 16%nat);
 ([0; 504; 64; 0; 0; 0; 0; 0; 129024; 16384; 0; 0; 0; 0; 0; 528482304; 67108864; 0; 0; 0; 0; 0; 0], 15%nat);
 ([0; 504; 16777216; 0; 0; 0; 0; 0; 129024; 0; 1; 0; 0; 0; 0; 528482304; 0; 4096; 0; 0; 0; 0; 0], 18%nat);
 ([0; 0; 0; 0; 2147483648; 94215; 0; 0; 0; 0; 0; 0; 24119168; 0; 0; 0; 0; 0; 0; 7864320; 23; 0; 0], 17%nat);
 ([0; 0; 16777216; 0; 0; 0; 0; 0; 0; 0; 1; 0; 0; 0; 0; 0; 0; 4096; 0; 0; 0; 0; 0], 14%nat);
 ([977040400; 3490828290; 4669457; 0; 0; 0; 18612224; 1014239712; 298844730; 1195381200; 0; 0; 0; 469762048; 1090641921; 2335687; 18678045; 1140; 0; 0; 0; 503321024; 0], 9%nat); ([0; 0; 0; 0; 0; 0; 0; 0; 0; 0; 0; 0; 0; 0; 0; 0; 0; 0; 0; 0; 0; 2147483648; 3], 2%nat);
 ([3670016; 0; 0; 0; 0; 0; 0; 939524544; 0; 0; 0; 0; 0; 0; 114688; 896; 0; 0; 0; 0; 0; 469762048; 0], 8%nat);
 ([3258942480; 270405635; 7880734; 0; 0; 0; 31457280; 1065619936; 504366018; 2017467920; 0; 0; 0; 3758096384; 1090641921; 3941368; 31523297; 1924; 0; 0; 0; 503324160; 0], 3%nat); ([0; 31457300; 8388640; 0; 0; 0; 0; 0; 3758101504; 2147491841; 0; 0; 0; 0; 0; 20971520; 33562112; 2048; 0; 0; 0; 0; 0], 6%nat);
 ([0; 0; 0; 0; 0; 0; 3221225472; 0; 0; 0; 0; 0; 0; 0; 192; 0; 0; 0; 0; 0; 0; 786432; 0], 7%nat);
 ([96472047; 771763712; 47104; 0; 0; 0; 100794368; 3222007296; 3014661; 12058670; 0; 0; 0; 33554432; 3204317190; 3758119936; 2147672066; 11; 0; 0; 0; 1610637344; 0], 4%nat); ([0; 0; 3758096384; 4032561157; 0; 0; 0; 0; 0; 0; 1543505376; 240; 0; 0; 0; 0; 0; 6160384; 984512; 0; 0; 0; 0], 5%nat);
 ([96472046; 771763712; 47104; 0; 0; 0; 100794368; 3222007296; 3014661; 12058670; 0; 0; 0; 33554432; 3202351110; 3758119936; 2147672066; 11; 0; 0; 0; 24608; 0], 0%nat);
 ([977040400; 3490828290; 4669457; 0; 0; 0; 958136320; 1014239712; 298844730; 1195381200; 0; 0; 0; 469762048; 1090641977; 2335687; 18678045; 1140; 0; 0; 0; 503550400; 0], 1%nat);
 ([96472047; 771763712; 47104; 0; 0; 0; 100794368; 3222007296; 3014661; 12058670; 0; 0; 0; 33554432; 3202351110; 3758119936; 2147672066; 11; 0; 0; 0; 24608; 0], 0%nat)])%N.
Definition nv_check (F : nfa_file) : bool := (f_ntokens F =? 1) && simb F ncls nnext 60 nshown nspec nv_pairs.
Lemma nv_sim : match compile 5 nv with Ok F => nv_check F | Err _ => false end = true.
Proof. vm_compute. reflexivity. Qed.
