-Q theories Verif
theories/Base.v
theories/M_Encoding.v
theories/S_Encoding.v
theories/L_Bits.v
theories/L_Encoding.v
theories/L_Encoding2.v
theories/P_Encoding.v
theories/M_TokTable.v
theories/L_TokTable.v
theories/S_TokTable.v
theories/L_TokTable2.v
theories/P_TokTable.v
theories/M_DbFile.v
theories/S_DbFile.v
theories/L_DbFile.v
theories/L_DbFile2.v
theories/L_DbFile3.v
theories/L_DbFile4.v
theories/L_DbFile5.v
theories/L_DbFile6.v
theories/L_DbFile7.v
theories/P_DbFile.v
theories/L_WuManber.v
theories/M_WuManber.v
theories/S_Match.v
theories/P_WuManber.v
theories/M_Search.v
theories/S_Search.v
theories/L_Search.v
theories/L_Search2.v
theories/L_Search3.v
theories/L_Search4.v
theories/L_Search5.v
theories/L_Search6.v
theories/P_Search.v
theories/M_Glob.v
theories/S_Glob.v
theories/L_Glob.v
theories/L_Glob2.v
theories/M_Paths.v
theories/P_Glob.v
theories/S_Paths.v
theories/L_Paths.v
theories/L_Paths2.v
theories/L_Paths3.v
theories/P_Paths.v
theories/M_Thread.v
theories/S_Thread.v
theories/L_Thread.v
theories/M_Purge.v
theories/S_Purge.v
theories/L_Purge.v
theories/L_Purge2.v
theories/L_Thread2.v
theories/P_Thread.v
theories/M_Tokens.v
theories/S_Tokens.v
theories/L_Tokens.v
theories/L_Tokens2.v
theories/L_Tokens3.v
theories/P_Tokens.v
theories/M_Mbox.v
theories/L_Mbox.v
theories/S_Mbox.v
theories/L_Mbox2.v
theories/L_Mbox3.v
theories/L_Mbox4.v
theories/P_Mbox.v
theories/M_Update.v
theories/S_Update.v
theories/L_Update.v
theories/L_Update2.v
theories/L_Update3.v
theories/L_Update4.v
theories/L_Update5.v
theories/L_Update6.v
theories/L_Update7.v
theories/L_Update8.v
theories/L_Update9.v
theories/L_Update10.v
theories/L_Update11.v
theories/L_Update12.v
theories/L_Update13.v
theories/L_Update14.v
theories/P_Update.v
theories/L_Update15.v
theories/L_Update16.v
theories/M_Config.v
theories/S_Config.v
theories/L_Config.v
theories/L_Config2.v
theories/L_Config3.v
theories/L_Config4.v
theories/L_Config5.v
theories/L_Config6.v
theories/L_Config7.v
theories/P_Config.v
theories/M_Output.v
theories/S_Output.v
theories/L_Output.v
theories/L_Output2.v
theories/L_Output3.v
theories/L_Output4.v
theories/L_Output5.v
theories/L_Output6.v
theories/L_Output7.v
theories/L_Output8.v
theories/L_Output9.v
theories/P_Output.v
theories/L_Output10.v
theories/M_Lock.v
theories/S_Lock.v
theories/L_Lock.v
theories/P_Lock.v
theories/M_Dates.v
theories/S_Dates.v
theories/S_Zone.v
theories/L_Dates.v
theories/L_Dates2.v
theories/L_Dates3.v
theories/L_Dates4.v
theories/L_Zone.v
theories/L_Calendar.v
theories/L_Dates5.v
theories/L_Dates6.v
theories/L_Dates7.v
theories/L_Dates8.v
theories/P_Dates.v
theories/M_Md5.v
theories/S_Md5.v
theories/L_Md5.v
theories/L_Md5b.v
theories/P_Md5.v
theories/M_Decode.v
theories/S_Decode.v
theories/L_Decode.v
theories/P_Decode.v
theories/M_Header.v
theories/S_Header.v
theories/L_Header.v
theories/P_Header.v
theories/M_Words.v
theories/S_Words.v
theories/L_Words.v
theories/L_Words2.v
theories/L_Words3.v
theories/P_Words.v
theories/M_Nvp.v
theories/S_Nvp.v
theories/L_Nvp.v
theories/L_Nvp2.v
theories/L_Nvp3.v
theories/L_Nvp4.v
theories/P_Nvp.v
theories/M_Rfc822.v
theories/S_Multipart.v
theories/L_Multipart.v
theories/L_Multipart2.v
theories/P_Multipart.v
theories/S_Rfc822.v
theories/L_Rfc822.v
theories/L_Rfc822b.v
theories/L_Rfc822c.v
theories/L_Rfc822d.v
theories/S_Mime.v
theories/L_Mime.v
theories/L_Mime2.v
theories/L_Mime3.v
theories/L_Mime4.v
theories/L_Mime5.v
theories/P_Rfc822.v
theories/P_Mime.v
theories/M_Session.v
theories/S_Session.v
theories/L_Session.v
theories/L_Session2.v
theories/L_Session3.v
theories/L_Session4.v
theories/L_Session5.v
theories/L_Session6.v
theories/P_Session.v
theories/M_From.v
theories/S_From.v
theories/L_From.v
theories/L_From2.v
theories/L_From3.v
theories/L_From4.v
theories/P_From.v
theories/L_Mime6.v
theories/L_Text.v
theories/L_Text2.v
theories/M_Hash.v
theories/M_Program.v
theories/S_Program.v
theories/L_Program.v
theories/L_Program2.v
theories/L_Program3.v
theories/P_Program.v
theories/M_Imap.v
theories/S_Imap.v
theories/L_Imap.v
theories/L_Imap2.v
theories/L_Imap3.v
theories/S_Server.v
theories/L_Imap4.v
theories/L_Imap5.v
theories/L_Imap6.v
theories/L_Imap7.v
theories/P_Imap.v
theories/S_Boxes.v
theories/L_Boxes.v
theories/L_Boxes2.v
theories/L_Boxes3.v
theories/L_Boxes4.v
theories/L_Boxes5.v
theories/L_Boxes6.v
theories/S_Mails.v
theories/L_Boxes7.v
theories/P_Boxes.v
theories/M_Charclass.v
theories/M_Dfasyn.v
theories/M_Compdfa.v
theories/S_Dfasyn.v
theories/L_Charclass.v
theories/L_Charclass2.v
theories/L_Charclass3.v
theories/L_Nfa.v
theories/L_Nfa2.v
theories/L_Nfa3.v
theories/L_Compdfa.v
theories/L_Compdfa2.v
theories/L_Compdfa3.v
theories/L_Compdfa4.v
theories/L_Compdfa5.v
theories/L_Tables.v
theories/L_Dfasyn.v
theories/L_Dfasyn2.v
theories/P_Dfasyn.v
theories/L_Outcome.v
theories/M_Scan.v
theories/M_Parse.v
theories/M_Files.v
theories/M_Blocks.v
theories/S_Blocks.v
theories/L_Blocks.v
theories/L_Blocks2.v
theories/L_Blocks3.v
theories/L_Blocks4.v
theories/L_Blocks5.v
theories/L_Blocks6.v
theories/L_Blocks7.v
theories/L_Blocks8.v
theories/P_Blocks.v
theories/L_Tie.v
theories/L_Tie2.v
theories/M_Tables.v
theories/L_Tie3.v
theories/L_Tie4.v
theories/L_Tie5.v
theories/L_Room.v
theories/P_Tables.v
theories/L_Tie6.v
theories/S_Tables.v
theories/L_Tie7.v
theories/L_Tie8.v
theories/L_Kinds.v
theories/L_Tie9.v
theories/L_Sim.v
theories/L_Tie10.v
theories/L_Tie11.v
theories/L_Tie12.v
theories/S_Query.v
theories/L_Query.v
theories/L_Query2.v
theories/L_Query3.v
theories/L_Query4.v
theories/P_Query.v
theories/S_Grammar.v
theories/L_Grammar.v
theories/L_Grammar2.v
theories/L_Grammar3.v
theories/P_Grammar.v
theories/S_Flex.v
theories/L_Flex.v
theories/L_Flex2.v
theories/L_Flex3.v
theories/L_Flex4.v
theories/L_Flex5.v
theories/L_Read.v
theories/P_Flex.v
theories/M_Mapping.v
theories/S_Mapping.v
theories/L_Mapping.v
theories/L_Mapping2.v
theories/P_Mapping.v
theories/M_Report.v
theories/S_Report.v
theories/L_Report.v
theories/P_Report.v
theories/S_Query2.v
theories/L_Query5.v
theories/L_Query6.v
theories/P_Query2.v
theories/M_Dump.v
theories/S_Dump.v
theories/L_Dump.v
theories/P_Dump.v
theories/M_Login.v
theories/S_Login.v
theories/L_Login.v
theories/L_Login2.v
theories/L_Login3.v
theories/P_Login.v
theories/M_Write.v
theories/S_Write.v
theories/L_Write.v
theories/P_Write.v
theories/L_Login4.v
theories/S_Deliver.v
theories/L_Deliver.v
theories/L_Deliver2.v
theories/L_Deliver3.v
theories/P_Deliver.v
theories/L_Mapping3.v
theories/M_Read.v
theories/S_Read.v
theories/L_Arrive.v
theories/P_Read.v
theories/M_ImapOut.v
theories/S_ImapOut.v
theories/L_ImapOut.v
theories/L_ImapOut2.v
theories/P_ImapOut.v
theories/M_CmdBuild.v
theories/S_CmdBuild.v
theories/L_CmdBuild.v
theories/P_CmdBuild.v
theories/M_Excerpt.v
theories/S_Excerpt.v
theories/L_Excerpt.v
theories/L_Excerpt2.v
theories/P_Excerpt.v
