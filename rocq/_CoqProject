-Q theories Verif
theories/Word.v
theories/Bits.v
theories/Header.v
theories/WordLemmas.v
theories/BitsProofs.v
theories/HeaderProofs.v
theories/ValMem.v
theories/Client.v
theories/Validate.v
theories/Target.v
theories/Spec.v
theories/AtomicSpec.v
theories/SpecLemmas.v
theories/System.v
theories/TargetRm.v
theories/Tx.v
theories/E2E.v
theories/E2ECor.v
theories/Devices.v
theories/DeviceLemmas.v
theories/WireSpec.v
theories/Prop_Masks.v
theories/Prop_Headers.v
theories/Prop_E2E.v
theories/Sent.v
theories/SentProofs.v
theories/Prop_Wire.v
theories/ReplySpec.v
theories/ReplyProofs.v
theories/Net.v
theories/NetProofs.v
theories/NetProofs2.v
theories/NetProofs3.v
theories/Prop_Valid.v
theories/Prop_Frame.v
theories/Prop_Recover.v
theories/Prop_Reply.v
theories/Handles.v
theories/Prop_Handles.v
theories/Prop_Limits.v
theories/Threads.v
theories/Prop_Threads.v
theories/Pool.v
theories/Prop_Pool.v
theories/NodeTree.v
theories/NodeProofs.v
theories/Prop_Node.v
theories/Rules.v
theories/Prop_Rules.v
theories/Attr.v
theories/Prop_Attr.v
theories/Builder.v
theories/BuildSpec.v
theories/BuilderProofs.v
theories/Prop_Builder.v
theories/Prop_Accept.v
theories/Cache.v
theories/Prop_Cache.v
theories/Overlap.v
theories/Prop_Overlap.v
theories/Udp.v
theories/UdpProofs.v
theories/Prop_Udp.v
theories/Tcp.v
theories/TcpProofs.v
theories/TcpProofs2.v
theories/Prop_Tcp.v
theories/Ring.v
theories/RingSpec.v
theories/RingProofs.v
theories/RingProofs2.v
theories/Prop_Ring.v
theories/Pages.v
theories/Prop_Pages.v
theories/Uri.v
theories/Prop_Uri.v
theories/Table.v
theories/Prop_Table.v
theories/Conn.v
theories/Prop_Conn.v
theories/Hw.v
theories/Prop_Hw.v
theories/Stack.v
theories/StackProofs.v
theories/StackUdp.v
theories/StackTcp.v
theories/StackRun.v
theories/StackWire.v
theories/Prop_Stack.v
theories/Hub.v
theories/HubSpec.v
theories/HubProofs.v
theories/HubInv.v
theories/HubAsk.v
theories/HubRecover.v
theories/HubSafe.v
theories/Prop_Hub.v
theories/Manager.v
theories/ManSpec.v
theories/Prop_Manager.v
theories/CHub.v
theories/CHubSpec.v
theories/Prop_CHub.v
theories/Shared.v
theories/SharedSpec.v
theories/Prop_Shared.v
theories/Full.v
theories/FullSpec.v
theories/FullWords.v
theories/FullBytes.v
theories/FullSim.v
theories/FullProofs.v
theories/Prop_Full.v
theories/Hub13.v
theories/Prop_Hub13.v
theories/Board.v
theories/BoardSpec.v
theories/BoardProofs.v
theories/Prop_Board.v
theories/BoardProgress.v
theories/Prop_BoardEnd.v
theories/SigBus.v
theories/Prop_SigBus.v
theories/Registry.v
theories/Prop_Registry.v
theories/Prop_Flush.v
theories/Allowlist.v
theories/AllowlistSpec.v
theories/Prop_Allowlist.v
theories/Prop_Live.v
theories/Prop_Ends.v
theories/Inspector.v
theories/InspectorSpec.v
theories/InspectorProofs.v
theories/Prop_Inspector.v
theories/Describe.v
theories/DescribeSpec.v
theories/DescribeProofs.v
theories/Prop_Describe.v
theories/CalmUdp.v
theories/CalmTcp.v
theories/Prop_Calm.v
theories/StackCalm.v
theories/Prop_StackCalm.v
theories/Listener.v
theories/ListenerSpec.v
theories/ListenerProofs.v
theories/Prop_Listener.v
theories/IntText.v
theories/IntTextSpec.v
theories/Prop_IntText.v
theories/NodeHeap.v
theories/NodeHeapSpec.v
theories/NodeHeapProofs.v
theories/Prop_NodeHeap.v
theories/Prop_Connect.v
theories/ExcText.v
theories/ExcTextSpec.v
theories/Prop_ExcText.v
theories/Log.v
theories/LogSpec.v
theories/Prop_Log.v
theories/DevStats.v
theories/DevStatsSpec.v
theories/Prop_DevStats.v
theories/Files.v
theories/FilesSpec.v
theories/Prop_Files.v
theories/Xml.v
theories/XmlSpec.v
theories/XmlProofs.v
theories/XmlRound.v
theories/XmlRound2.v
theories/XmlRound3.v
theories/XmlOnly.v
theories/Prop_Xml.v
theories/FromFile.v
theories/FromFileSpec.v
theories/FromFileProofs.v
theories/Prop_FromFile.v
theories/HubTarget.v
theories/Prop_HubTarget.v
theories/Kinds.v
theories/KindsSpec.v
theories/KindsProofs.v
theories/Prop_Kinds.v
theories/OverlapText.v
theories/Prop_OverlapText.v
theories/PyVal.v
theories/Prop_PyVal.v
theories/AddrDecode.v
theories/Prop_AddrDecode.v
theories/RegDump.v
theories/Prop_RegDump.v
theories/GuiTree.v
theories/Prop_GuiTree.v
theories/Prop_DumpClient.v
theories/Widget.v
theories/Prop_Widget.v
theories/PollTree.v
theories/Prop_PollTree.v
