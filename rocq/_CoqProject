-Q theories Verif
theories/Res.v
theories/Vec3.v
theories/Mat.v
theories/MatInv.v
theories/Psd.v
theories/Spec.v
theories/LieGroup.v
theories/LieSO3.v
theories/LieSEK.v
theories/LieThms.v
theories/PropLie.v
theories/SEK3.v
theories/RobotState.v
theories/StateProofs.v
theories/SpecState.v
theories/StateHist.v
theories/StateMisc.v
theories/PropState.v
theories/Inekf.v
theories/SpecFilter.v
theories/InekfProofs.v
theories/InekfThms.v
theories/PropInekf.v
theories/Imu.v
theories/Propagation.v
theories/Blk.v
theories/SpecProp.v
theories/PropagationProofs.v
theories/PropagationThms.v
theories/PropagationExact.v
theories/PropagationLog.v
theories/PropagationODE.v
theories/PropagationUniq.v
theories/ImuThms.v
theories/ImuRest.v
theories/ImuNeg.v
theories/PropImu.v
theories/Queue.v
theories/VelCorr.v
theories/LegCorr.v
theories/SpecCorr.v
theories/VelThms.v
theories/PsdBlk.v
theories/LegThms.v
theories/LegAdd.v
theories/LegLoop.v
theories/LegUpd.v
theories/LegHist.v
theories/CorrInno.v
theories/PropCorr.v
theories/Quat.v
theories/QuatThms.v
theories/Estimator.v
theories/SpecEst.v
theories/SpecFiles.v
theories/EstInv.v
theories/EstSafe.v
theories/EstPub.v
theories/EstHist.v
theories/EstTime.v
theories/EstEx.v
theories/EstQueue.v
theories/EstLog.v
theories/EstFiles.v
theories/Driver.v
theories/EstNames.v
theories/EstMisc.v
theories/PropEst.v
theories/ImuFilter.v
theories/SpecGyro.v
theories/GyroThms.v
theories/GyroHist.v
theories/GyroEx.v
theories/GyroMore.v
theories/GyroFlat.v
theories/GyroLive.v
theories/PropGyro.v
theories/KinGen.v
theories/Kinematics.v
theories/SpecKin.v
theories/KinEq.v
theories/KinEqB.v
theories/KinThms.v
theories/KinVel.v
theories/PropKin.v
theories/WheelOdom.v
theories/SpecOdom.v
theories/OdomThms.v
theories/OdomMore.v
theories/OdomExact.v
theories/PropOdom.v
theories/Ros.v
theories/SpecRos.v
theories/RosThms.v
theories/RosPub.v
theories/RosOdom.v
theories/RosNeg.v
theories/RosAtomic.v
theories/PropRos.v
theories/Stamp.v
theories/SpecStamp.v
theories/StampThms.v
theories/PropStamp.v
theories/ConvLeg.v
theories/ConvFilter.v
theories/SpecConv.v
theories/ConvEst.v
theories/ConvEx.v
theories/PropConv.v
theories/SpecClear.v
theories/ClearShift.v
theories/ClearEst.v
theories/ClearSlip.v
theories/ClearThms.v
theories/ClearEx.v
theories/PropClear.v
theories/SpecYaw.v
theories/YawFilter.v
theories/YawSteps.v
theories/YawEst.v
theories/YawRun.v
theories/YawEx.v
theories/OriRun.v
theories/PropYaw.v
theories/SpecSnap.v
theories/Snap.v
theories/SnapEx.v
theories/PropSnap.v
theories/SpecDriver.v
theories/DriverThms.v
theories/PropDriver.v
theories/System.v
theories/SpecSystem.v
theories/SystemThms.v
theories/PropSystem.v
theories/SpecObs.v
theories/Obs.v
theories/ObsEst.v
theories/ObsThms.v
theories/ObsDir.v
theories/ObsCorr.v
theories/PropObs.v
theories/SpecTrack.v
theories/Track.v
theories/TrackEst.v
theories/TrackSteady.v
theories/TrackCircle.v
theories/TrackEx.v
theories/TrackLeg.v
theories/PropTrack.v
theories/SpecSched.v
theories/Sched.v
theories/SchedMore.v
theories/SchedEx.v
theories/PropSched.v
theories/SpecTime.v
theories/TimeShift.v
theories/TimeEst.v
theories/TimeLog.v
theories/PropTime.v
theories/Node.v
theories/SpecNode.v
theories/NodeThms.v
theories/NodeEx.v
theories/PropNode.v
theories/SpecPark.v
theories/Park.v
theories/ParkEx.v
theories/PropPark.v
theories/SpecStep.v
theories/Step.v
theories/StepCal.v
theories/PropStep.v
theories/SpecGyroStep.v
theories/GyroStep.v
theories/PropGyroStep.v
theories/SpecAcc.v
theories/Acc.v
theories/PropAcc.v
theories/SpecMono.v
theories/Mono.v
theories/PropMono.v
theories/SpecScale.v
theories/Scale.v
theories/ScaleEst.v
theories/PropScale.v
theories/SpecMirror.v
theories/Mirror.v
theories/MirrorStep.v
theories/MirrorLeg.v
theories/MirrorEst.v
theories/PropMirror.v
