-Q theories Verif
theories/Base.v
theories/M_AEAD.v
theories/M_Addr.v
theories/M_Alias.v
theories/M_Bench.v
theories/M_Binary.v
theories/M_Boot.v
theories/M_Callback.v
theories/M_Calls.v
theories/M_Chat.v
theories/M_Client.v
theories/M_Close.v
theories/M_Codec.v
theories/M_CodecLock.v
theories/M_Conn.v
theories/M_Ctr.v
theories/M_Dial.v
theories/M_Drip.v
theories/M_Duplex.v
theories/M_Ecdh.v
theories/M_Ends.v
theories/M_Events.v
theories/M_Examples.v
theories/M_Frame.v
theories/M_GWork.v
theories/M_Gossip.v
theories/M_Handshake.v
theories/M_ID.v
theories/M_Identity.v
theories/M_Idle.v
theories/M_Iter.v
theories/M_Kad.v
theories/M_KadConn.v
theories/M_KeyPair.v
theories/M_Leak.v
theories/M_Listen.v
theories/M_Log.v
theories/M_Maps.v
theories/M_Meet.v
theories/M_Mem.v
theories/M_Mesh.v
theories/M_Msg.v
theories/M_Nested.v
theories/M_Node.v
theories/M_Options.v
theories/M_Own.v
theories/M_ParseIP.v
theories/M_Pipe.v
theories/M_Quit.v
theories/M_Reflect.v
theories/M_Respond.v
theories/M_Room.v
theories/M_Rpc.v
theories/M_Screen.v
theories/M_Share.v
theories/M_Sign.v
theories/M_Storm.v
theories/M_Sym.v
theories/M_Table.v
theories/M_Timely.v
theories/M_Torn.v
theories/M_Use.v
theories/M_Work.v
theories/P_AEAD.v
theories/P_Binary.v
theories/P_Client.v
theories/P_Close.v
theories/P_Codec.v
theories/P_Conn.v
theories/P_Dial.v
theories/P_Frame.v
theories/P_Gossip.v
theories/P_GossipNet.v
theories/P_Iter.v
theories/P_Kad.v
theories/P_Keys.v
theories/P_Lines.v
theories/P_Node.v
theories/P_ParseIP.v
theories/P_Prime.v
theories/P_Table.v
theories/P_Text.v
theories/P_Wire.v
theories/P_Work.v
theories/Props_Addr.v
theories/Props_Agree.v
theories/Props_Alias.v
theories/Props_Bench.v
theories/Props_Boot.v
theories/Props_Callback.v
theories/Props_Calls.v
theories/Props_Chat.v
theories/Props_Client.v
theories/Props_Close.v
theories/Props_Codec.v
theories/Props_CodecLock.v
theories/Props_Commands.v
theories/Props_Conn.v
theories/Props_Ctr.v
theories/Props_Deaf.v
theories/Props_Dial.v
theories/Props_Discover.v
theories/Props_Drip.v
theories/Props_Duplex.v
theories/Props_Ecdh.v
theories/Props_Ends.v
theories/Props_Events.v
theories/Props_Examples.v
theories/Props_Fit.v
theories/Props_Frame.v
theories/Props_Fresh.v
theories/Props_GWork.v
theories/Props_Given.v
theories/Props_Gossip.v
theories/Props_Handshake.v
theories/Props_Identity.v
theories/Props_Idle.v
theories/Props_Iter.v
theories/Props_Kad.v
theories/Props_KadConn.v
theories/Props_KadProto.v
theories/Props_KeyPair.v
theories/Props_Leak.v
theories/Props_Liar.v
theories/Props_Listed.v
theories/Props_Listen.v
theories/Props_Log.v
theories/Props_Maps.v
theories/Props_Meet.v
theories/Props_Mem.v
theories/Props_Mesh.v
theories/Props_Nested.v
theories/Props_Node.v
theories/Props_Options.v
theories/Props_Own.v
theories/Props_Pipe.v
theories/Props_Quit.v
theories/Props_Reflect.v
theories/Props_Respond.v
theories/Props_Return.v
theories/Props_Room.v
theories/Props_Rpc.v
theories/Props_Screen.v
theories/Props_Share.v
theories/Props_Shutdown.v
theories/Props_Sign.v
theories/Props_Slow.v
theories/Props_Spare.v
theories/Props_Stay.v
theories/Props_Storm.v
theories/Props_Stuck.v
theories/Props_Sym.v
theories/Props_Timely.v
theories/Props_Torn.v
theories/Props_Turn.v
theories/Props_Use.v
theories/Props_Whole.v
theories/Props_Wire.v
theories/Props_Work.v
theories/Spec.v
