-Q theories Verif
theories/Base.v
theories/BaseProofs.v
theories/Bit.v
theories/Place.v
theories/BitSpec.v
theories/BitProofs.v
theories/PlaceProofs.v
theories/Frame.v
theories/FrameSpec.v
theories/FrameLens.v
theories/FrameProofs.v
theories/FrameMove.v
theories/FrameOps.v
theories/FramePiles.v
theories/FrameInv.v
theories/FrameShuffle.v
theories/FrameFacts.v
theories/Limbo.v
theories/LimboSpec.v
theories/LimboProofs.v
theories/LimboFacts.v
theories/Msg.v
theories/Event.v
theories/EventSpec.v
theories/LimboUndo.v
theories/EventUndo.v
theories/EventProofs.v
theories/Query.v
theories/QuerySpec.v
theories/QueryProofs.v
theories/Reader.v
theories/EncodeQuery.v
theories/Encode.v
theories/CoreMsg.v
theories/EncodeSpec.v
theories/ReaderProofs.v
theories/EncodeProofs.v
theories/EncodeQueryProofs.v
theories/EncodeLocal.v
theories/EncodeFrame.v
theories/EncodeFacts.v
theories/EncodeState.v
theories/StreamSpec.v
theories/StreamProofs.v
theories/EncodeE2E.v
theories/EncodeReload.v
theories/EncodeHistory.v
theories/Decode.v
theories/DecodeSpec.v
theories/DecodeProofs.v
theories/Room.v
theories/RoomSpec.v
theories/RoomProofs.v
theories/RoomInv.v
theories/RoomMirror.v
theories/RoomTotal.v
theories/PropsBit.v
theories/PropsPlace.v
theories/PropsFrame.v
theories/PropsLimbo.v
theories/PropsBoard.v
theories/HazardSpec.v
theories/HazardProofs.v
theories/PropsFrameExact.v
theories/HazardLimbo.v
theories/HazardEvent.v
theories/EvalOrder.v
theories/ShuffleWild.v
theories/PropsHazard.v
theories/PropsQuery.v
theories/UQuery.v
theories/UQuerySpec.v
theories/UQueryProofs.v
theories/UQueryFacts.v
theories/LimboNat.v
theories/FrameNat.v
theories/BoardNat.v
theories/UReplaySpec.v
theories/UReplay.v
theories/PropsUQuery.v
theories/BoardAgree.v
theories/UReplayAgree.v
theories/PropsAgree.v
theories/PropsEncode.v
theories/PropsEncodeE2E.v
theories/PropsDecode.v
theories/PropsRoom.v
theories/RoomLive.v
theories/PropsRoomLive.v
theories/RepoTests.v
theories/RepoTestsRoom.v
theories/Duel.v
theories/DuelView.v
theories/DuelMove.v
theories/DuelCalm.v
theories/DuelFeed.v
theories/DuelFlush.v
theories/DuelMsg.v
theories/DuelRest.v
theories/DuelTell.v
theories/DuelRun.v
theories/DuelFree.v
theories/DuelFreeProofs.v
theories/PropsDuel.v
theories/DuelReplaySpec.v
theories/DuelReplay.v
theories/PropsDuelReplay.v
theories/DialogueSpec.v
theories/Dialogue.v
theories/PropsDialogue.v
theories/EncodeWildSpec.v
theories/EncodeWild.v
theories/EncodeWildRead.v
theories/EncodeWildTop.v
theories/PropsWild.v
theories/HazardMsgSpec.v
theories/HazardMsgProofs.v
theories/HazardMsgTop.v
theories/HazardShuffle.v
theories/PropsHazardMsg.v
theories/ClientSpec.v
theories/ClientProofs.v
theories/PropsClient.v
theories/LateSpec.v
theories/Rename.v
theories/LateProofs.v
theories/PropsLate.v
theories/LostSpec.v
theories/LostProofs.v
theories/LostWalk.v
theories/LostForever.v
theories/LostExact.v
theories/PropsLost.v
theories/UNode.v
theories/UNodeSpec.v
theories/UNodeProofs.v
theories/PropsUNode.v
theories/QueryRunSpec.v
theories/PropsQueryRun.v
theories/QueryTellSpec.v
theories/PropsQueryTell.v
theories/SeatSpec.v
theories/PropsSeats.v
theories/PropsUNodeMem.v
theories/PropsLedger.v
theories/CloneSpec.v
theories/PropsClone.v
theories/NewsSpec.v
theories/PropsNews.v
theories/PropsExact.v
theories/Copy.v
theories/CopyProofs.v
theories/PropsCopy.v
theories/SizeSpec.v
theories/SizeProofs.v
theories/PropsSize.v
theories/FlipSpec.v
theories/FlipProofs.v
theories/PropsFlip.v
theories/RoomAlikeSpec.v
theories/RoomAlike.v
theories/RoomHush.v
theories/PropsRoomAlike.v
theories/Alloc.v
theories/AllocProofs.v
theories/AllocSpec.v
theories/PropsAlloc.v
theories/RoomLoose.v
theories/RoomLooseSpec.v
theories/RoomLooseProofs.v
theories/PropsRoomLoose.v
theories/RoomMood.v
theories/PropsRoomMood.v
theories/Release.v
theories/ReleaseRoom.v
theories/ReleaseSpec.v
theories/ReleaseProofs.v
theories/ReleaseRoomSpec.v
theories/ReleaseRoomProofs.v
theories/PropsRelease.v
theories/PropsReleaseRoom.v
theories/ReleaseFrameSpec.v
theories/ReleaseFrameProofs.v
theories/PropsReleaseFrame.v
theories/ReleaseUndo.v
theories/PropsReleaseUndo.v
theories/ReleaseAgreeSpec.v
theories/ReleaseAgreeProofs.v
theories/PropsReleaseAgree.v
theories/ContextSpec.v
theories/ContextProofs.v
theories/PropsContext.v
theories/ReleaseEncode.v
theories/ReleaseEncodeSpec.v
theories/ReleaseEncodeProofs.v
theories/PropsReleaseEncode.v
theories/AssertSpec.v
theories/AssertProofs.v
theories/PropsAssert.v
theories/ReleaseBackSpec.v
theories/ReleaseBackProofs.v
theories/ReleaseBackLimbo.v
theories/PropsReleaseBack.v
theories/PropsUQueryExact.v
theories/ReloadSpec.v
theories/ReloadExact.v
theories/PropsReload.v
theories/EncodeExact.v
theories/PropsEncodeExact.v
theories/PropsExactMore.v
theories/DialogueExact.v
theories/PropsDialogueExact.v
theories/DuelReplayExact.v
theories/PropsDuelReplayExact.v
theories/PropsHistoryExact.v
theories/PropsLimboExact.v
theories/PropsBoardExact.v
theories/RoomStuckSpec.v
theories/RoomStuck.v
theories/PropsRoomStuck.v
theories/PropsRoomAlive.v
