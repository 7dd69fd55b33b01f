-Q theories Verif
theories/M_Action.v
theories/M_Agent.v
theories/M_Behavior.v
theories/M_Bicycle.v
theories/M_Config.v
theories/M_Control.v
theories/M_Copies.v
theories/M_Env.v
theories/M_Graphics.v
theories/M_Gym.v
theories/M_Heap.v
theories/M_Interval.v
theories/M_Keeping.v
theories/M_Kinematics.v
theories/M_Lane.v
theories/M_Mdp.v
theories/M_Models.v
theories/M_Nets.v
theories/M_Obs.v
theories/M_Observer.v
theories/M_Predictor.v
theories/M_Regression.v
theories/M_Regulation.v
theories/M_Reset.v
theories/M_Road.v
theories/M_Scenes.v
theories/M_Seed.v
theories/M_Ttc.v
theories/M_Utils.v
theories/M_Vehicle.v
theories/M_Viewer.v
theories/P_Action.v
theories/P_Agent.v
theories/P_Apart.v
theories/P_Base.v
theories/P_Behavior.v
theories/P_Bfs.v
theories/P_Bicycle.v
theories/P_CarFollowing.v
theories/P_Chance.v
theories/P_Collision.v
theories/P_Control.v
theories/P_Crash.v
theories/P_Crossing.v
theories/P_Entry.v
theories/P_Env.v
theories/P_Following.v
theories/P_Graph.v
theories/P_Graphics.v
theories/P_Grid.v
theories/P_Gym.v
theories/P_Heap.v
theories/P_Interval.v
theories/P_Joined.v
theories/P_Keeping.v
theories/P_Kin.v
theories/P_Lane.v
theories/P_Lift.v
theories/P_Models.v
theories/P_Move.v
theories/P_Moved.v
theories/P_MovedEnv.v
theories/P_MovedRoad.v
theories/P_Nets.v
theories/P_Obs.v
theories/P_Observer.v
theories/P_Paths.v
theories/P_Play.v
theories/P_Predictor.v
theories/P_Query.v
theories/P_Ready.v
theories/P_Regression.v
theories/P_Regulation.v
theories/P_Rename.v
theories/P_Repro.v
theories/P_Reset.v
theories/P_Scene.v
theories/P_Scenes.v
theories/P_Share.v
theories/P_Spacing.v
theories/P_Track.v
theories/P_Traffic.v
theories/P_Ttc.v
theories/P_Utils.v
theories/P_Viewer.v
theories/Prelude.v
theories/S_Agent.v
theories/S_Apart.v
theories/S_Behavior.v
theories/S_Bicycle.v
theories/S_CarFollowing.v
theories/S_Chance.v
theories/S_Config.v
theories/S_Control.v
theories/S_Copies.v
theories/S_Env.v
theories/S_Following.v
theories/S_Geometry.v
theories/S_Graphics.v
theories/S_Gym.v
theories/S_Heap.v
theories/S_Interval.v
theories/S_Joined.v
theories/S_Keeping.v
theories/S_Mdp.v
theories/S_Models.v
theories/S_Moved.v
theories/S_Obs.v
theories/S_Observer.v
theories/S_Predictor.v
theories/S_Regression.v
theories/S_Regulation.v
theories/S_Repro.v
theories/S_Reset.v
theories/S_Road.v
theories/S_Scene.v
theories/S_Seed.v
theories/S_Spacing.v
theories/S_Track.v
theories/S_Ttc.v
theories/S_Vehicle.v
theories/S_Viewer.v
theories/T_Action.v
theories/T_Agent.v
theories/T_Apart.v
theories/T_Available.v
theories/T_Behavior.v
theories/T_Bicycle.v
theories/T_CarFollowing.v
theories/T_Chance.v
theories/T_Config.v
theories/T_Control.v
theories/T_Copies.v
theories/T_Env.v
theories/T_Following.v
theories/T_Graphics.v
theories/T_Grid.v
theories/T_Gym.v
theories/T_Interval.v
theories/T_Joined.v
theories/T_Keeping.v
theories/T_Kin.v
theories/T_Lane.v
theories/T_Mdp.v
theories/T_Models.v
theories/T_Moved.v
theories/T_Obs.v
theories/T_Observer.v
theories/T_Predict.v
theories/T_Predictor.v
theories/T_Regression.v
theories/T_Regulation.v
theories/T_Repro.v
theories/T_Reset.v
theories/T_Returned.v
theories/T_Rewards.v
theories/T_Road.v
theories/T_Scene.v
theories/T_Seed.v
theories/T_Share.v
theories/T_Spacing.v
theories/T_Track.v
theories/T_Traffic.v
theories/T_Ttc.v
theories/T_Twins.v
theories/T_Utils.v
theories/T_Variants.v
theories/T_Viewer.v
theories/T_Worst.v
