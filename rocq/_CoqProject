-Q theories Verif
theories/Machine.v
theories/Floats.v
theories/FloatFacts.v
theories/WavModel.v
theories/InterpModel.v
theories/CacheModel.v
theories/ReaderModel.v
theories/ReaderFacts.v
theories/ReaderSpec.v
theories/Sessions.v
theories/StreamFacts.v
theories/Walk.v
theories/ForwardProofs.v
theories/PlayProofs.v
theories/LoopSpec.v
theories/LoopProofs.v
theories/HistSpec.v
theories/HistProofs.v
theories/HistFinal.v
theories/CacheFacts.v
theories/CacheSpec.v
theories/CacheProofs.v
theories/WavSpec.v
theories/WavProofs.v
theories/WavPlayProofs.v
theories/WavFinal.v
theories/FileSpec.v
theories/WindowProofs.v
theories/LoopWindow.v
theories/FileProofs.v
theories/FilePlay.v
theories/FileForward.v
theories/CacheFinal.v
theories/ResponderModel.v
theories/ResponderSpec.v
theories/ResponderProofs.v
theories/QueueProofs.v
theories/PlayerModel.v
theories/LifeSpec.v
theories/UpdateProofs.v
theories/LifeProofs.v
theories/WorldProofs.v
theories/ScheduleProofs.v
theories/PlayerCases.v
theories/ReplaySpec.v
theories/ReplayProofs.v
theories/ReplayCases.v
theories/Props_Chunk.v
theories/Props_Play.v
theories/Props_Wav.v
theories/RateProofs.v
theories/Props_Loop.v
theories/Props_Cache.v
theories/Props_File.v
theories/Props_Responder.v
theories/Props_Player.v
theories/Props_Replay.v
theories/MillisModel.v
theories/MillisProofs.v
theories/MillisCases.v
theories/Props_Millis.v
theories/FadeSpec.v
theories/FadeProofs.v
theories/FadeLoop.v
theories/FadeCases.v
theories/Props_Fade.v
theories/CubicProofs.v
theories/QuadProofs.v
theories/LagrangeProofs.v
theories/InterpSafe.v
theories/InterpWalk.v
theories/InterpCases.v
theories/Props_Interp.v
theories/DriftProofs.v
theories/DriftCases.v
theories/Props_Drift.v
theories/RaceModel.v
theories/RaceProofs.v
theories/Props_Race.v
theories/MirrorSpec.v
theories/MirrorProofs.v
theories/MirrorFinal.v
theories/TimingProofs.v
theories/PartProofs.v
theories/TrackProofs.v
theories/TrackFinal.v
theories/TrackSpec.v
theories/TrackPlay.v
theories/TrackCases.v
theories/Props_Track.v
theories/Props_Mirror.v
theories/StageSpec.v
theories/StageProofs.v
theories/StageCases.v
theories/Props_Stage.v
theories/LoopFileSpec.v
theories/LoopFile.v
theories/LoopPath.v
theories/LoopOpen.v
theories/LoopCases.v
theories/Props_LoopFile.v
theories/PongSpec.v
theories/PongWindow.v
theories/PongFile.v
theories/PongPath.v
theories/PongOpen.v
theories/PongCases.v
theories/Props_PongFile.v
theories/RacePlay.v
theories/RaceSpec.v
theories/RaceCache.v
theories/RaceFile.v
theories/RaceOpen.v
theories/RaceCases.v
theories/Props_RacePlay.v
theories/BumpProofs.v
theories/LateCache.v
theories/LateFile.v
theories/LateSpec.v
theories/LateOpen.v
theories/LateCases.v
theories/Props_Late.v
theories/PolledSpec.v
theories/PolledProofs.v
theories/PolledCases.v
theories/Props_Polled.v
theories/TapeSpec.v
theories/TapeProofs.v
theories/TapeCases.v
theories/Props_Tape.v
theories/BackSpec.v
theories/BackWindow.v
theories/BackFile.v
theories/BackProofs.v
theories/BackOpen.v
theories/BackCases.v
theories/Props_Back.v
theories/CallModel.v
theories/CallSpec.v
theories/CallProofs.v
theories/CallTweak.v
theories/CallAtomic.v
theories/CallQuiet.v
theories/CallRate.v
theories/CallCases.v
theories/Props_Call.v
theories/ReelSpec.v
theories/ReelProofs.v
theories/ReelOpen.v
theories/ReelCases.v
theories/Props_Reel.v
theories/SoloSpec.v
theories/SoloProofs.v
theories/SoloPlay.v
theories/OutSpec.v
theories/StageMore.v
theories/SoloCases.v
theories/Props_Solo.v
theories/SketchModel.v
theories/SketchSpec.v
theories/SketchProofs.v
theories/SketchArray.v
theories/FileSafe.v
theories/SketchFile.v
theories/SketchCases.v
theories/SketchRuns.v
theories/SketchOnce.v
theories/Props_Sketch.v
theories/ManySpec.v
theories/ManyProofs.v
theories/ManyCases.v
theories/Props_Many.v
theories/PianoModel.v
theories/PianoSpec.v
theories/PianoProofs.v
theories/PianoQuiet.v
theories/PianoScore.v
theories/PianoCases.v
theories/Props_Piano.v
theories/PlayAllModel.v
theories/PlayAllSpec.v
theories/PlayAllProofs.v
theories/PlayAllCases.v
theories/Props_PlayAll.v
theories/FleetSpec.v
theories/ArraySafe.v
theories/FleetProofs.v
theories/FleetPolled.v
theories/FleetCases.v
theories/Props_Fleet.v
theories/AccessModel.v
theories/AccessSpec.v
theories/AccessProofs.v
theories/AccessCases.v
theories/Props_Access.v
theories/ContractModel.v
theories/ContractProofs.v
theories/ContractCases.v
theories/Props_Contract.v
theories/HeldSpec.v
theories/HeldProofs.v
theories/HeldPlay.v
theories/UnitModel.v
theories/UnitProofs.v
theories/UnitCases.v
theories/Props_Held.v
theories/Props_Unit.v
theories/HeldLoopSpec.v
theories/HeldLoop.v
theories/UnitLoopModel.v
theories/UnitLoop.v
theories/Props_UnitLoop.v
theories/HeldBackSpec.v
theories/HeldBack.v
theories/Props_HeldBack.v
theories/BackAloneSpec.v
theories/BackAlone.v
theories/UnitBackModel.v
theories/UnitBack.v
theories/Props_BackAlone.v
theories/UnitArrayModel.v
theories/UnitArray.v
theories/Props_UnitArray.v
